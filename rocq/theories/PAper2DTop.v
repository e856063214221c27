(* The 2-D model's headline facts in the form the theorem file states them. *)
From Coq Require Import Reals Lra List Bool Arith ZArith Lia.
From Verif Require Import PyFloat PyBase Arr PyNum MParams MKernels MAper2D SParams SKernels SAper2D PParams PAper2D PAper2DHist PAper2DGrid PAper2DShape PAper2DOk PAper2DVal PAper2DGeo PAper2DEx PAper2DEff PKernels PKernels2.
Import ListNotations.
Local Open Scope R_scope.

Lemma store_theta c k a : k_theta (fst (store_model c k a)) = k_theta k /\ k_vary (fst (store_model c k a)) = k_vary k.
Proof.
  unfold store_model. destruct (a_model a); cbn; auto. destruct (k_noscale k); cbn; auto. destruct (scale_model _ _); cbn; auto.
Qed.
Lemma update_aper_theta c k : k_theta (fst (km_update_aper c k)) = k_theta k /\ k_vary (fst (km_update_aper c k)) = k_vary k.
Proof.
  unfold km_update_aper. destruct (k_aper k) as [a|]; [|cbn; auto]. destruct (aper_update c (k_theta k) a) as [a' [u|e]]; [|cbn; auto].
  match goal with |- context [store_model c ?x ?y] => destruct (store_theta c x y) as [-> ->] end. auto.
Qed.

(* whatever happens afterwards, the parameters are the supplied ones *)
Lemma call_params c x k : length (k_vary k) = length (k_theta k) -> length (args x) = nfree (k_vary k) ->
  let k' := fst (run c x k) in
  k_vary k' = k_vary k /\ length (k_theta k') = length (k_theta k) /\
  (forall m, free (k_vary k) m -> nth_error (k_theta k') m = nth_error (args x) (rank (k_vary k) m)) /\
  (forall m, ~ free (k_vary k) m -> nth_error (k_theta k') m = nth_error (k_theta k) m).
Proof.
  intros Hl Ha k'. destruct (update_parameters_spec (k_theta k) (k_vary k) (args x) Hl) as (th&E&L&F1&F2); [lia|].
  assert (T : k_theta k' = th /\ k_vary k' = k_vary k).
  { unfold k'. destruct x as [tf|tf]; cbn [run args] in *; unfold km_make, km_update; rewrite n_free_param_nfree, Ha, Nat.eqb_refl; cbn [negb]; rewrite E.
    - cbn [k_aper]. destruct (k_aper k) as [a|] eqn:Ek.
      + match goal with |- context [km_update_aper c ?y] => destruct (update_aper_theta c y) as [-> ->] end. auto.
      + destruct (aper_new c th _) as [st [a|e]]; cbn [fst k_theta k_vary]; auto.
        match goal with |- context [store_model c ?y ?z] => destruct (store_theta c y z) as [-> ->] end. auto.
    - match goal with |- context [km_update_aper c ?y] => destruct (update_aper_theta c y) as [-> ->] end. auto. }
  destruct T as [-> ->]. auto.
Qed.

Lemma scale_shape d m m' : scale_model d m = Ok m' -> rows m' = rows m /\ cols m' = cols m.
Proof.
  unfold scale_model. destruct (negb _); [discriminate|]. destruct (negb _); [discriminate|]. destruct (negb _); [discriminate|].
  destruct (negb _); [discriminate|]. intros E. injection E as <-. auto.
Qed.

Lemma evaluated_inv c th a0 a : setup_calcs c th = Ok a0 -> evaluated c a0 a ->
  inv c (a_su a0) (a_wv a0) (a_stamp a0) a /\ a_wv a = a_wv a0.
Proof.
  intros Es H. destruct (setup_calcs_inv _ _ _ Es) as (w&Hr&W&I&_). rewrite W.
  induction H as [|th' a b Hab [IH1 IH2] E]; [now split|].
  unfold aper_update in E. 
  assert (E1 : modS (set_theta th') a = (set_theta th' a, Ok tt)) by reflexivity.
  rewrite (bindS_Ok _ _ _ _ _ E1) in E.
  destruct (eval_pres c _ _ (a_stamp a0) Hr (set_theta th' a)) as [X Y]; [now apply inv_theta|].
  rewrite E in X, Y. cbn [fst snd] in *. split; [exact X|now apply Y].
Qed.

(* after any number of successful evaluations, the wavelength attributes are the original ones *)
Lemma grid_restored c th a0 a : setup_calcs c th = Ok a0 -> evaluated c a0 a ->
  a_su a = a_su a0 /\ a_wv a = a_wv a0 /\ w_arr (a_wv a) = g_wave (c_gal c) /\
  w_n (a_wv a) = length (g_wave (c_gal c)) /\ w_d (a_wv a) = average (diffs (g_wave (c_gal c))).
Proof.
  intros Es H. destruct (evaluated_inv _ _ _ _ Es H) as [(I1&_) W]. split; [exact I1|]. split; [exact W|]. rewrite W.
  revert Es. unfold setup_calcs. destruct (setup_model_grid c th) as [[g w]|e] eqn:Eg; [|discriminate].
  unfold bind. intros E. injection E as <-. cbn [a_wv].
  destruct (setup_fields _ _ _ _ Eg) as (_&_&_&_&_&_&_&_&_&_&_&_&_&_&_&_&_&_&_&_&_&_&->). auto.
Qed.

Lemma image_shape c th a0 a b th' : setup_calcs c th = Ok a0 -> evaluated c a0 a ->
  aper_update c th' a = (b, Ok tt) ->
  exists m, a_model b = Some m /\ rows m = img_rows c /\ cols m = length (g_wave (c_gal c)).
Proof.
  intros Es H E. destruct (evaluated_inv _ _ _ _ Es H) as [I W].
  revert Es. unfold setup_calcs. destruct (setup_model_grid c th) as [[g w]|e] eqn:Eg; [|discriminate]. unfold bind. intros Es. injection Es as <-.
  cbn [a_su a_wv a_stamp] in *. unfold aper_update in E.
  assert (E1 : modS (set_theta th') a = (set_theta th' a, Ok tt)) by reflexivity.
  rewrite (bindS_Ok _ _ _ _ _ E1) in E.
  apply (eval_shape c th g w _ _ _ _ Eg) with (5 := E) (3 := inv_theta c _ _ _ th' a I); auto.
  cbn [s_real]. now intros ->.
Qed.
Lemma new_evaluated c th st0 st a a0 : setup_calcs c th = Ok a0 -> aper_new c th st0 = (st, Ok a) ->
  evaluated c a0 a /\ exists m, a_model a = Some m /\ rows m = img_rows c /\ cols m = length (g_wave (c_gal c)).
Proof.
  intros Es. unfold aper_new. rewrite Es. destruct (do_model_calcs c a0) as [a1 [[]|e]] eqn:E; [|discriminate].
  intros X. injection X as <- <-.
  assert (U : aper_update c th a0 = (a1, Ok tt)).
  { unfold aper_update. assert (E1 : modS (set_theta th) a0 = (a0, Ok tt)).
    { unfold modS. f_equal. destruct (setup_calcs_inv _ _ _ Es) as (w&_&_&_&T). destruct a0; cbn in *. now subst. }
    now rewrite (bindS_Ok _ _ _ _ _ E1). }
  split; [exact (ev_step c a0 th a0 a1 (ev_start c a0) U)|].
  eapply image_shape; eauto. constructor.
Qed.

Definition shaped (c : cfg) (k : kinmodel) : Prop :=
  exists m, k_model k = Some m /\ rows m = img_rows c /\ cols m = length (g_wave (c_gal c)).
Definition goodk (c : cfg) (k : kinmodel) : Prop :=
  shaped c k /\ exists th a0 a, setup_calcs c th = Ok a0 /\ evaluated c a0 a /\ k_aper k = Some a.

Lemma store_good c k a k' th a0 : setup_calcs c th = Ok a0 -> evaluated c a0 a -> k_aper k = Some a ->
  (exists m, a_model a = Some m /\ rows m = img_rows c /\ cols m = length (g_wave (c_gal c))) ->
  store_model c k a = (k', Ok tt) -> goodk c k'.
Proof.
  intros Es He Ek (m&Em&R&C). unfold store_model. rewrite Em.
  destruct (k_noscale k).
  - intros X. injection X as <-. split; [exists m; auto|exists th, a0, a; auto].
  - destruct (scale_model _ m) as [m'|e] eqn:Es'; [|discriminate]. intros X. injection X as <-.
    destruct (scale_shape _ _ _ Es') as [R' C']. split; [exists m'; cbn; repeat split; congruence|exists th, a0, a; auto].
Qed.
Lemma update_aper_good c k k' th a0 a : setup_calcs c th = Ok a0 -> evaluated c a0 a -> k_aper k = Some a ->
  km_update_aper c k = (k', Ok tt) -> goodk c k'.
Proof.
  intros Es He Ek. unfold km_update_aper. rewrite Ek.
  destruct (aper_update c (k_theta k) a) as [a' [[]|e]] eqn:E; [|discriminate].
  intros X. refine (store_good c _ a' k' th a0 Es _ _ _ X); [eapply ev_step; eauto|reflexivity|].
  eapply image_shape; eauto.
Qed.
Lemma run_good c x k k' : (fresh k /\ (exists tf, x = CMake tf) \/ goodk c k) -> run c x k = (k', Ok tt) -> goodk c k'.
Proof.
  intros H E. destruct x as [tf|tf]; cbn [run] in E; unfold km_make, km_update in E;
    (destruct (negb _); [discriminate|]); destruct (update_parameters _ _ _) as [th [u|e]]; try discriminate; cbn [k_aper] in E.
  - destruct (k_aper k) as [a|] eqn:Ek.
    + destruct H as [[F _]|(_&th0&a0&a1&Es&He&Ek')]; [unfold fresh in F; congruence|].
      refine (update_aper_good c _ k' th0 a0 a1 Es He _ E). cbn [k_aper]. congruence.
    + destruct (aper_new c th _) as [st [a|e]] eqn:En; [|discriminate].
      destruct (setup_calcs c th) as [a0|e] eqn:Es; [|unfold aper_new in En; rewrite Es in En; discriminate].
      destruct (new_evaluated _ _ _ _ _ _ Es En) as [X Y].
      refine (store_good c _ a k' th a0 Es X _ Y E). reflexivity.
  - destruct H as [[_ (tf'&Hx)]|(_&th0&a0&a1&Es&He&Ek')]; [discriminate|].
    refine (update_aper_good c _ k' th0 a0 a1 Es He _ E). exact Ek'.
Qed.
Lemma history_good c k0 k : fresh k0 -> history c k0 k -> goodk c k.
Proof.
  intros F H. induction H as [tf k E|x k k' H IH E|x k k' H IH L E].
  - eapply run_good with (x := CMake tf); [left; split; eauto|exact E].
  - eapply run_good; [right; exact IH|exact E].
  - rewrite (guard_same c x k L) in E. injection E as <-. exact IH.
Qed.
Lemma history_shape c k0 k : fresh k0 -> history c k0 k ->
  exists m, k_model k = Some m /\ rows m = img_rows c /\ cols m = length (g_wave (c_gal c)).
Proof. intros F H. exact (proj1 (history_good c k0 k F H)). Qed.
Lemma history_grid c k0 k : fresh k0 -> history c k0 k -> exists a, k_aper k = Some a /\
  w_arr (a_wv a) = g_wave (c_gal c) /\ w_n (a_wv a) = length (g_wave (c_gal c)) /\
  w_d (a_wv a) = average (diffs (g_wave (c_gal c))).
Proof.
  intros F H. destruct (history_good c k0 k F H) as [_ (th&a0&a&Es&He&Ek)]. exists a. split; [exact Ek|].
  now destruct (grid_restored _ _ _ _ Es He) as (_&_&X).
Qed.

(* up-sampling of an evenly spaced grid *)
Lemma uniform_inc w0 d N : 0 < d -> increasing (map (fun i => w0 + INR i * d) (seq 0 N)).
Proof.
  intros Hd i j H. rewrite map_length, seq_length in H.
  rewrite !(nth_indep _ 0 (w0 + INR 0 * d)) by (rewrite map_length, seq_length; lia).
  rewrite !(map_nth (fun i => w0 + INR i * d)), !seq_nth by lia. cbn [Nat.add].
  assert (INR i < INR j) by (apply lt_INR; lia). nra.
Qed.
Lemma uniform_map w0 d N : uniform w0 d N = map Fin (map (fun i => w0 + INR i * d) (seq 0 N)).
Proof. unfold uniform. now rewrite map_map. Qed.
Lemma last_map_seq (F : nat -> R) n : last (map F (seq 0 (S n))) 0 = F n.
Proof. rewrite seq_S, map_app. cbn [map]. now rewrite last_last. Qed.

Lemma upsample_uniform c th a0 a w0 d N f :
  setup_calcs c th = Ok a0 -> a_su a = a_su a0 -> a_wv a = a_wv a0 -> o_adapt (c_opt c) = true ->
  g_wave (c_gal c) = uniform w0 d N -> 0 < d -> (2 <= N)%nat -> o_factor (c_opt c) = INR f -> (1 <= f)%nat ->
  abs_lt_truth (a_disp a) (s_up (a_su a)) = Ok true ->
  exists a', check_do_upsample_wave c a = (a', Ok tt) /\
    w_n (a_wv a') = (N * f)%nat /\ length (w_arr (a_wv a')) = (N * f)%nat /\ w_d (a_wv a') = Fin (d / INR f) /\
    (forall k, (k < N * f)%nat -> lnth (w_arr (a_wv a')) k = Fin (w0 - (d - d / INR f) / 2 + INR k * (d / INR f))) /\
    (forall i, (i < N)%nat -> fsumn f (fun s => lnth (w_arr (a_wv a')) (i * f + s)) = Fin (INR f * (w0 + INR i * d))).
Proof.
  intros Es Hsu Hwv Ha Hu Hd HN Hf Hf1 Ht.
  revert Es. unfold setup_calcs. destruct (setup_model_grid c th) as [[g w]|e] eqn:Eg; [|discriminate]. unfold bind. intros Es. injection Es as <-.
  cbn [a_su a_wv] in *. rewrite Ha in *.
  destruct (setup_fields _ _ _ _ Eg) as (_&_&_&_&_&_&_&_&_&_&_&_&_&_&_&_&_&_&_&_&_&_&Fw).
  set (l := map (fun i => w0 + INR i * d) (seq 0 N)).
  assert (Hl : g_wave (c_gal c) = map Fin l) by (rewrite Hu; apply uniform_map).
  assert (Ll : length l = N) by (unfold l; now rewrite map_length, seq_length).
  destruct (upsample_triggered c (a_su a) w a l f eq_refl) as (a'&E&_&_&_&_&_&N1&N2&N3&N4); auto.
  - now rewrite Hsu.
  - now rewrite Fw.
  - now rewrite Fw, <- Hl.
  - now apply uniform_inc.
  - lia.
  - assert (Hstep : (last l 0 - hd 0 l) / (INR (length l) - 1) = d).
    { rewrite Ll. unfold l. destruct N as [|n]; [lia|]. rewrite last_map_seq. cbn [seq map hd].
      rewrite S_INR. assert (0 < INR n) by (apply (lt_INR 0); lia). cbn [INR]. field. lra. }
    assert (Hh : hd 0 l = w0). { unfold l. destruct N as [|n]; [lia|]. cbn [seq map hd INR]. ring. }
    rewrite Hstep, Hh in *. rewrite Ll in *. exists a'. repeat (split; [assumption|]).
    intros i Hi.
    assert (Pf : 0 < INR f) by (apply (lt_INR 0); lia).
    rewrite (fsumn_Fin f _ (fun s => (w0 - (d - d / INR f) / 2 + INR i * d) + INR s * (d / INR f))).
    2:{ intros s Hs. rewrite N4 by nia. rewrite plus_INR, mult_INR. f_equal. field. lra. }
    f_equal. clear - Pf.
    assert (S : forall n a b, rsumn n (fun s => a + INR s * b) = INR n * a + b * (INR n * (INR n - 1) / 2)).
    { induction n; intros a b; [cbn [rsumn INR]; field|]. cbn [rsumn]; rewrite IHn, S_INR. field. }
    rewrite S. field. lra.
Qed.

(* x and z grids *)
Lemma x_grid_top c th g w : setup_model_grid c th = Ok (g, w) ->
  length (x_arr g) = nX g /\
  forall i, (i < nX g)%nat -> lnth (x_arr g) i = Fin ((INR i - (INR (nX g) - 1) / 2) * delt_x g - o_xc (c_opt c)).
Proof. exact (x_grid c th g w). Qed.
Lemma z_grid_top c th g w : setup_model_grid c th = Ok (g, w) ->
  length (z_arr g) = nZ g /\
  forall i, (i < nZ g)%nat -> lnth (z_arr g) i = Fin ((INR i - (INR (nZ g) - 1) / 2) * delt_z g).
Proof. exact (z_grid c th g w). Qed.

(* y grid *)
Lemma y_grid_top c th g w m0 : setup_model_grid c th = Ok (g, w) -> m0_fit g = Fin m0 -> (2 <= nY g)%nat ->
  length (y_arr g) = nY g /\
  (forall j, (j < nY g)%nat ->
    lnth (y_arr g) j = Fin (subpixel_y (o_nsub (c_opt c)) (padY g) (delt_y g) m0 j
       + INR (o_nsub (c_opt c)) * delt_y g * (1/2 - INR j / (INR (nY g) - 1)))) /\
  (forall j, (S j < nY g)%nat ->
    fsub (lnth (y_arr g) (S j)) (lnth (y_arr g) j)
    = Fin (delt_y g * (1 - INR (o_nsub (c_opt c)) / (INR (nY g) - 1)))).
Proof.
  intros Hg Hm HN. destruct (y_grid _ _ _ _ _ Hg Hm) as [L V]. split; [exact L|].
  assert (E : Nat.eqb (nY g) 1 = false) by (apply Nat.eqb_neq; lia). rewrite E in V.
  split; [exact V|]. intros j Hj. rewrite !V by lia. unfold fsub. cbn [fadd fneg]. f_equal. unfold true_y.
  assert (2 <= INR (nY g)) by (apply (le_INR 2); lia). rewrite S_INR. field. lra.
Qed.
Lemma y_grid_centre c th g w m0 : setup_model_grid c th = Ok (g, w) -> m0_fit g = Fin m0 -> (2 <= nY g)%nat ->
  fsumn (nY g) (fun j => lnth (y_arr g) j) = Fin (rsumn (nY g) (subpixel_y (o_nsub (c_opt c)) (padY g) (delt_y g) m0)).
Proof.
  intros Hg Hm HN. destruct (y_grid_top _ _ _ _ _ Hg Hm HN) as (_&V&_).
  rewrite (fsumn_Fin _ (fun j => lnth (y_arr g) j) _ (fun j Hj => V j Hj)). f_equal. rewrite rsumn_plus.
  assert (S : forall n b, rsumn n (fun s => b * INR s) = b * (INR n * (INR n - 1) / 2)).
  { induction n; intros b; [cbn [rsumn INR]; field|]. cbn [rsumn]; rewrite IHn, S_INR. field. }
  assert (2 <= INR (nY g)) by (apply (le_INR 2); lia).
  set (K := INR (o_nsub (c_opt c)) * delt_y g).
  rewrite (rsumn_ext (nY g) (fun i => K * (1/2 - INR i / (INR (nY g) - 1))) (fun i => K * (1/2) + (- K / (INR (nY g) - 1)) * INR i)).
  2:{ intros i _. field. lra. }
  rewrite rsumn_plus, S.
  assert (C : forall n b, rsumn n (fun _ => b) = INR n * b).
  { induction n; intros b; [cbn [rsumn INR]; field|]. cbn [rsumn]; rewrite IHn, S_INR. ring. }
  rewrite C.
  match goal with |- ?A + (?B + ?D) = ?E => assert (Z : B + D = 0) by (field; lra); rewrite Z; apply Rplus_0_r end.
Qed.
Lemma y_grid_wrong c th g w m0 : setup_model_grid c th = Ok (g, w) -> m0_fit g = Fin m0 -> (2 <= nY g)%nat -> 0 < i_pix (c_ins c) ->
  forall j, (S j < nY g)%nat -> fsub (lnth (y_arr g) (S j)) (lnth (y_arr g) j) <> Fin (i_pix (c_ins c) / INR (o_nsub (c_opt c))).
Proof.
  intros Hg Hm HN Hp j Hj. destruct (y_grid_top _ _ _ _ _ Hg Hm HN) as (_&_&V). rewrite V by auto.
  destruct (setup_fields _ _ _ _ Hg) as (F1&F2&F3&F4&F5&F6&F7&_). rewrite <- F7. intros E. injection E as E.
  assert (1 <= INR (o_nsub (c_opt c))) by (apply (le_INR 1); lia).
  assert (0 < delt_y g) by (rewrite F7; apply Rdiv_lt_0_compat; lra).
  assert (2 <= INR (nY g)) by (apply (le_INR 2); lia).
  assert (0 < INR (o_nsub (c_opt c)) / (INR (nY g) - 1)) by (apply Rdiv_lt_0_compat; lra). nra.
Qed.
