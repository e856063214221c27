From Coq Require Import Reals Lra List Bool Arith ZArith Lia.
From Verif Require Import PyFloat PyBase Arr PyNum MParams MKernels MAper2D SParams SAper2D PParams PAper2D.
Import ListNotations.

Lemma update_agree vary tf th th' : length vary = length th -> length th' = length th ->
  nfree vary <= length tf ->
  (forall m, ~ free vary m -> nth_error th m = nth_error th' m) ->
  update_parameters th vary tf = update_parameters th' vary tf.
Proof.
  intros H1 H2 H3 H4.
  destruct (update_parameters_spec th vary tf) as [x [E1 [L1 [F1 N1]]]]; auto.
  destruct (update_parameters_spec th' vary tf) as [y [E2 [L2 [F2 N2]]]]; [congruence|auto|].
  rewrite E1, E2. f_equal. apply nth_error_ext. intros i.
  destruct (nth_error vary i) as [[|]|] eqn:E.
  - rewrite F1, F2; auto.
  - assert (~ free vary i) by (unfold free; congruence). rewrite N1, N2; auto.
  - assert (~ free vary i) by (unfold free; congruence). rewrite N1, N2; auto.
Qed.

Lemma getz_last (th th' : list fl) vary : length vary = length th -> length th' = length th ->
  2 <= length th ->
  (forall i, length th - 2 <= i -> nth_error vary i <> Some true) ->
  (forall m, ~ free vary m -> nth_error th m = nth_error th' m) ->
  getz th (-1) = getz th' (-1) /\ getz th (-2) = getz th' (-2).
Proof.
  intros H1 H2 H3 H4 H5. unfold getz. rewrite H2.
  destruct (Z.ltb_spec (-1) 0); [|lia]. destruct (Z.ltb_spec (-2) 0); [|lia].
  destruct (Z.leb_spec 0 (-1 + Z.of_nat (length th))); [|lia].
  destruct (Z.leb_spec 0 (-2 + Z.of_nat (length th))); [|lia].
  unfold getn. split; rewrite H5; auto; unfold free; apply H4; lia.
Qed.

(* state of a model object built from k0 *)
Definition kinv (c : cfg) (k0 k : kinmodel) (strict : bool) : Prop :=
  k_vary k = k_vary k0 /\ k_noscale k = k_noscale k0 /\ length (k_theta k) = length (k_theta k0) /\
  (forall m, ~ free (k_vary k0) m -> nth_error (k_theta k) m = nth_error (k_theta k0) m) /\
  exists a a0 w, k_aper k = Some a /\ setup_calcs c (k_theta k0) = Ok a0 /\
    (o_adapt (c_opt c) = true -> s_real (a_su a0) = Some w) /\ a_wv a0 = w /\
    inv c (a_su a0) w (a_stamp a0) a0 /\
    inv c (a_su a0) w (a_stamp a0) a /\
    (strict = true \/ o_adapt (c_opt c) = false -> a_wv a = w).

Lemma store_fields c k a k' r : store_model c k a = (k', r) ->
  k_theta k' = k_theta k /\ k_vary k' = k_vary k /\ k_noscale k' = k_noscale k /\
  k_aper k' = k_aper k /\ k_stamp k' = k_stamp k.
Proof.
  unfold store_model. destruct (a_model a); [|intros E; injection E as <- <-; auto].
  destruct (k_noscale k) eqn:En; [|destruct (scale_model _ _)]; intros E; injection E as <- <-; cbn; auto.
Qed.

Section K.
Variable c : cfg. Variable k0 : kinmodel.
Hypothesis Hfix : offsets_fixed k0.

Let vary := k_vary k0.
Lemma Hlen : length vary = length (k_theta k0). Proof. apply Hfix. Qed.

Definition newth (tf : list fl) : list fl := fst (update_parameters (k_theta k0) vary tf).

Lemma newth_spec tf : length tf = nfree vary ->
  update_parameters (k_theta k0) vary tf = (newth tf, Ok tt) /\
  length (newth tf) = length (k_theta k0) /\
  (forall m, ~ free vary m -> nth_error (newth tf) m = nth_error (k_theta k0) m).
Proof.
  intros H. destruct (update_parameters_spec (k_theta k0) vary tf) as [x [E [L [F N]]]];
    [apply Hlen|lia|]. unfold newth. rewrite E. cbn. auto.
Qed.

Lemma newth_getz tf : length tf = nfree vary ->
  getz (k_theta k0) (-1) = getz (newth tf) (-1) /\ getz (k_theta k0) (-2) = getz (newth tf) (-2).
Proof.
  intros H. destruct (newth_spec tf H) as [_ [L N]]. destruct Hfix as [F1 [F2 F3]].
  apply (getz_last _ _ vary); auto. intros m Hm. now rewrite N.
Qed.

(* what an update does to a related state *)
Lemma update_as_fresh k s tf : kinv c k0 k s -> (s = true \/ o_adapt (c_opt c) = false) ->
  length tf = nfree vary ->
  snd (km_update c tf k) = snd (km_make c tf (mkkm (k_theta k0) vary (k_noscale k0) None (k_model k) (k_stamp k0))) /\
  (snd (km_update c tf k) = Ok tt ->
   fst (km_update c tf k) = fst (km_make c tf (mkkm (k_theta k0) vary (k_noscale k0) None (k_model k) (k_stamp k0)))).
Proof.
  intros [V1 [V2 [V3 [V4 [a [a0 [w [A1 [A2 [A3 [A4 [A5 [A6 A7]]]]]]]]]]]]] Hs Ht.
  specialize (A7 Hs).
  unfold km_update, km_make. rewrite V1. cbn [k_vary k_theta k_aper k_noscale k_model k_stamp].
  fold vary. rewrite n_free_param_nfree, Ht, Nat.eqb_refl. cbn [negb].
  destruct (newth_spec tf Ht) as [U [L N]]. destruct (newth_getz tf Ht) as [Z1 Z2].
  rewrite (update_agree vary tf (k_theta k) (k_theta k0)); auto; try lia;
    [|rewrite V3; apply Hlen].
  rewrite U. cbv beta iota zeta. unfold km_update_aper. cbn [k_vary k_theta k_aper k_noscale k_model k_stamp].
  rewrite A1. unfold aper_new. rewrite (setup_calcs_ext _ _ _ _ Z1 Z2 A2).
  unfold aper_update. unfold bindS at 1 2 3, modS at 1 2 3.
  pose proof (eval_rel c (a_su a0) w (a_stamp a0) A3
     (set_theta (newth tf) a) (set_theta (newth tf) a0)) as R.
  destruct R as [R1 R2]; [now apply inv_theta|now apply inv_theta|reflexivity|cbn; congruence|].
  destruct (do_model_calcs c (set_theta (newth tf) a)) as [x [[]|e]];
  destruct (do_model_calcs c (set_theta (newth tf) a0)) as [y [[]|e']]; cbn [fst snd] in *; try discriminate.
  - specialize (R2 eq_refl). subst y. rewrite V2. split; auto.
  - split; [auto|discriminate].
Qed.

Lemma make_indep tf m st m' st' :
  let f x y := km_make c tf (mkkm (k_theta k0) vary (k_noscale k0) None x y) in
  snd (f m st) = snd (f m' st') /\ (snd (f m st) = Ok tt -> fst (f m st) = fst (f m' st')).
Proof.
  cbv zeta. unfold km_make. cbn [k_vary k_theta k_aper k_noscale k_model k_stamp].
  destruct (negb _); [split; [auto|discriminate]|].
  destruct (update_parameters _ _ _) as [th [[]|e]]; [|split; [auto|discriminate]].
  unfold aper_new. destruct (setup_calcs c th); [|split; [auto|discriminate]].
  destruct (do_model_calcs c a) as [x [[]|e]]; [|split; [auto|discriminate]].
  unfold store_model. destruct (a_model x); [|split; [auto|discriminate]].
  cbn [k_vary k_theta k_aper k_noscale k_model k_stamp].
  destruct (k_noscale k0); [auto|]. destruct (scale_model _ _); split; auto; discriminate.
Qed.

Lemma guard_same x k : length (args x) <> nfree (k_vary k) -> run c x k = (k, Err ValueError).
Proof.
  intros H. destruct x; cbn in *; unfold km_make, km_update; rewrite n_free_param_nfree;
    (destruct (Nat.eqb_spec (length tf) (nfree (k_vary k))); [congruence|reflexivity]).
Qed.

Lemma update_kinv k s tf : kinv c k0 k s ->
  kinv c k0 (fst (km_update c tf k)) false /\
  (snd (km_update c tf k) = Ok tt -> kinv c k0 (fst (km_update c tf k)) true).
Proof.
  intros HK. pose proof HK as [V1 [V2 [V3 [V4 [a [a0 [w [A1 [A2 [A3 [A4 [A5 [A6 A7]]]]]]]]]]]]].
  unfold km_update. rewrite V1, n_free_param_nfree. fold vary.
  destruct (Nat.eqb_spec (length tf) (nfree vary)) as [Ht|Ht]; cbn [negb fst snd].
  2: { split; [|discriminate]. repeat (split; [assumption|]). exists a, a0, w.
       repeat (split; [assumption|]). intros [Hx|Hx]; [discriminate|auto]. }
  destruct (newth_spec tf Ht) as [U [L N]].
  rewrite (update_agree vary tf (k_theta k) (k_theta k0)); auto; try lia;
    [|rewrite V3; apply Hlen].
  rewrite U. unfold km_update_aper. cbn [k_vary k_theta k_aper k_noscale k_model k_stamp]. rewrite A1.
  unfold aper_update. unfold bindS at 1 2 3, modS at 1 2 3.
  destruct (eval_pres c (a_su a0) w (a_stamp a0) A3 (set_theta (newth tf) a)) as [P1 P2];
    [now apply inv_theta|].
  destruct (do_model_calcs c (set_theta (newth tf) a)) as [x [[]|e]]; cbn [fst snd] in *.
  - specialize (P2 eq_refl).
    match goal with |- context [store_model c ?kk ?xx] => set (kq := kk);
      destruct (store_model c kq xx) as [k' r] eqn:Es end.
    destruct (store_fields _ _ _ _ _ Es) as [S1 [S2 [S3 [S4 S5]]]]. cbn in S1, S2, S3, S4.
    assert (X : forall b, kinv c k0 k' b).
    { intros b. unfold kinv. rewrite S1, S2, S3. repeat (split; [assumption || reflexivity|]).
      exists x, a0, w. repeat (split; [assumption || reflexivity|]). auto. }
    cbn [fst]. auto.
  - split; [|discriminate]. unfold kinv. cbn. repeat (split; [assumption || reflexivity|]).
    exists x, a0, w. repeat (split; [assumption || reflexivity|]). intros [Hx|Hx]; [discriminate|].
    apply P1. exact Hx.
Qed.

Lemma make_some k a tf : k_aper k = Some a -> km_make c tf k = km_update c tf k.
Proof.
  intros H. unfold km_make, km_update. rewrite H.
  destruct (negb _); [reflexivity|]. destruct (update_parameters _ _ _) as [th [[]|e]]; reflexivity.
Qed.

Lemma run_kinv k s x : kinv c k0 k s ->
  kinv c k0 (fst (run c x k)) false /\
  (snd (run c x k) = Ok tt -> kinv c k0 (fst (run c x k)) true).
Proof.
  intros H. destruct x; cbn [run]; [|now apply (update_kinv k s)].
  pose proof H as [_ [_ [_ [_ [a [_ [_ [A _]]]]]]]]. rewrite (make_some _ _ _ A).
  now apply (update_kinv k s).
Qed.

Lemma make_kinv tf k : fresh k0 -> km_make c tf k0 = (k, Ok tt) -> kinv c k0 k true.
Proof.
  unfold fresh, km_make. intros Hf. fold vary. rewrite n_free_param_nfree.
  destruct (Nat.eqb_spec (length tf) (nfree vary)) as [Ht|Ht]; [|discriminate]. cbn [negb].
  destruct (newth_spec tf Ht) as [U [L N]]. destruct (newth_getz tf Ht) as [Z1 Z2].
  rewrite U. cbn [k_vary k_theta k_aper k_noscale k_model k_stamp]. rewrite Hf.
  unfold aper_new. destruct (setup_calcs c (newth tf)) as [a0'|] eqn:Es; [|discriminate].
  pose proof (setup_calcs_ext _ _ _ _ (eq_sym Z1) (eq_sym Z2) Es) as Es0.
  set (a0 := set_theta (k_theta k0) a0') in *.
  destruct (setup_calcs_inv _ _ _ Es) as [w [W1 [W2 [W3 W4]]]].
  destruct (setup_calcs_inv _ _ _ Es0) as [w' [W1' [W2' [W3' W4']]]].
  assert (w' = w) by (cbn in W2'; congruence). subst w'.
  destruct (eval_pres c (a_su a0') w (a_stamp a0') W1 a0' W3) as [P1 P2].
  destruct (do_model_calcs c a0') as [x [[]|e]]; [|discriminate]. cbn [fst snd] in *.
  intros E. destruct (store_fields _ _ _ _ _ E) as [S1 [S2 [S3 [S4 S5]]]]. cbn in S1, S2, S3, S4.
  unfold kinv. rewrite S1, S2, S3. repeat (split; [assumption || reflexivity|]).
  exists x, a0, w. repeat (split; [assumption || reflexivity|]). auto.
Qed.

Lemma history_kinv k : fresh k0 -> history c k0 k -> kinv c k0 k true.
Proof.
  intros Hf H. induction H as [tf k H|x k k' H IH Hr|x k k' H IH Hg Hr].
  - eapply make_kinv; eauto.
  - pose proof (run_kinv k true x IH) as [_ R]. rewrite Hr in R. apply R. reflexivity.
  - rewrite guard_same in Hr by auto. injection Hr as <-. exact IH.
Qed.

Lemma history_any_kinv k : fresh k0 -> history_any c k0 k -> exists s, kinv c k0 k s.
Proof.
  intros Hf H. induction H as [tf k H|x k k' r H [s IH] Hr].
  - exists true. eapply make_kinv; eauto.
  - pose proof (run_kinv k s x IH) as [R _]. rewrite Hr in R. exists false. exact R.
Qed.

Lemma eval_fresh k s tf x : fresh k0 -> kinv c k0 k s -> (s = true \/ o_adapt (c_opt c) = false) ->
  args x = tf ->
  snd (run c x k) = snd (km_make c tf k0) /\
  (snd (run c x k) = Ok tt -> fst (run c x k) = fst (km_make c tf k0)).
Proof.
  intros Hf HK Hs Hx.
  assert (Ex : run c x k = km_update c tf k).
  { pose proof HK as [_ [_ [_ [_ [a [_ [_ [A _]]]]]]]].
    destruct x; cbn in *; subst; [now rewrite (make_some _ _ _ A)|reflexivity]. }
  rewrite Ex. pose proof HK as [V1 _].
  destruct (Nat.eq_dec (length tf) (nfree vary)) as [Ht|Ht].
  - destruct (update_as_fresh k s tf HK Hs Ht) as [R1 R2].
    destruct (make_indep tf (k_model k) (k_stamp k0) (k_model k0) (k_stamp k0)) as [Q1 Q2].
    assert (Ek : mkkm (k_theta k0) vary (k_noscale k0) None (k_model k0) (k_stamp k0) = k0).
    { unfold fresh in Hf. unfold vary. destruct k0; cbn in *. now subst. }
    rewrite Ek in *. split; [congruence|]. intros Hok. rewrite R2 by auto. apply Q2. congruence.
  - pose proof (guard_same (CUpdate tf) k) as G1. pose proof (guard_same (CMake tf) k0) as G2.
    cbn in G1, G2. rewrite G1 by (rewrite V1; auto). rewrite G2 by auto. split; [auto|discriminate].
Qed.

End K.

Lemma history_independent c k0 k x : offsets_fixed k0 -> fresh k0 -> history c k0 k ->
  snd (run c x k) = snd (km_make c (args x) k0) /\
  (snd (run c x k) = Ok tt -> fst (run c x k) = fst (km_make c (args x) k0)).
Proof.
  intros Ho Hf H. eapply eval_fresh; eauto. eapply history_kinv; eauto.
Qed.

Lemma history_independent_any c k0 k x : offsets_fixed k0 -> fresh k0 ->
  o_adapt (c_opt c) = false -> history_any c k0 k ->
  snd (run c x k) = snd (km_make c (args x) k0) /\
  (snd (run c x k) = Ok tt -> fst (run c x k) = fst (km_make c (args x) k0)).
Proof.
  intros Ho Hf Ha H. destruct (history_any_kinv c k0 Ho k Hf H) as [s Hk]. eapply eval_fresh; eauto.
Qed.
