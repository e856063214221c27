From Coq Require Import Reals Lra List Bool Arith ZArith Lia.
From Verif Require Import PyFloat PyBase Arr PyNum MParams MKernels MAper2D SParams SAper2D PParams.
Import ListNotations.
Local Open Scope R_scope.

Ltac csplit := repeat match goal with |- _ /\ _ => split end.
Ltac ub := unfold bindS, getS, putS, modS, liftR, ret, raise.

(* ---------- history independence ---------- *)

Definition dv_ok (c : cfg) (su : setup) (st : stamp) (a : aper) : Prop :=
  (a_dvel a = None /\ a_idw a = IdwNone) \/
  (o_shift (c_opt c) || o_eff (c_opt c) = true /\
     exists v d, eff_inst_res c (s_grid su) st = Ok (v, d) /\ a_dvel a = Some v /\
       a_idw a <> IdwNone /\
       (o_shift (c_opt c) && o_eff (c_opt c) = true -> a_idw a = IdwArr d)) \/
  (o_shift (c_opt c) || o_eff (c_opt c) = false /\ a_dvel a = None).

Definition inv (c : cfg) (su : setup) (w : wv) (st : stamp) (a : aper) : Prop :=
  a_su a = su /\ a_stamp a = st /\ dv_ok c su st a /\
  (o_adapt (c_opt c) = false -> a_wv a = w).

Lemma bindS_Ok {S A B} (m : ST S A) (f : A -> ST S B) s s' a :
  m s = (s', Ok a) -> bindS m f s = f a s'.
Proof. unfold bindS. now intros ->. Qed.
Lemma bindS_Err {S A B} (m : ST S A) (f : A -> ST S B) s s' e :
  m s = (s', Err e) -> bindS m f s = (s', Err e).
Proof. unfold bindS. now intros ->. Qed.

Section Steps.
Variable c : cfg. Variable su : setup. Variable w : wv. Variable st : stamp.
Hypothesis Hreal : o_adapt (c_opt c) = true -> s_real su = Some w.

Local Notation I := (inv c su w st).

Definition pres (m : ST aper unit) : Prop := forall a, I a -> I (fst (m a)).

Lemma pres_bind m (f : unit -> ST aper unit) : pres m -> (forall u, pres (f u)) -> pres (bindS m f).
Proof.
  intros Hm Hf a Ha. unfold bindS. specialize (Hm a Ha).
  destruct (m a) as [a' [u|e]]; simpl in *; auto. now apply Hf.
Qed.
Lemma pres_ret : pres (ret tt). Proof. intros a H. exact H. Qed.

Lemma inv_prof v d b : I b -> I (set_prof v d b).
Proof. intros [? [? [? ?]]]. repeat split; auto. Qed.
Lemma inv_theta v b : I b -> I (set_theta v b).
Proof. intros [? [? [? ?]]]. repeat split; auto. Qed.
Lemma inv_cube x b : I b -> I (set_cube x b).
Proof. intros [? [? [? ?]]]. repeat split; auto. Qed.
Lemma inv_conv x b : I b -> I (set_conv x b).
Proof. intros [? [? [? ?]]]. repeat split; auto. Qed.
Lemma inv_out x b : I b -> I (set_out x b).
Proof. intros [? [? [? ?]]]. repeat split; auto. Qed.
Lemma inv_model x b : I b -> I (set_model x b).
Proof. intros [? [? [? ?]]]. repeat split; auto. Qed.
Lemma inv_wv x b : I b -> (o_adapt (c_opt c) = false -> x = w) -> I (set_wv x b).
Proof. intros [? [? [? ?]]] ?. repeat split; auto. Qed.
Local Hint Resolve inv_prof inv_cube inv_conv inv_out inv_model inv_wv inv_theta : core.

Lemma update_theta_pres : pres (update_theta c).
Proof. intros a H. cbn. auto. Qed.

Lemma upsample_pres : o_adapt (c_opt c) = true -> pres (check_do_upsample_wave c).
Proof.
  intros Ha a H. unfold check_do_upsample_wave. ub.
  assert (Hx : forall x b, I b -> I (set_wv x b)) by (intros; apply inv_wv; auto; congruence).
  destruct (abs_lt_truth _ _) as [[|]|]; auto.
  destruct (s_real (a_su a)); auto.
  destruct (np_min _); [|apply Hx; auto].
  destruct (np_max _); [|apply Hx; auto].
  destruct (int_round _); [|apply Hx; auto].
  destruct (_ <? 0)%Z; apply Hx; auto.
Qed.

Lemma sigma_options_pres : pres (sigma_options c).
Proof.
  intros a H. unfold sigma_options. ub.
  destruct (o_abs _), (o_floor _); cbn [fst]; auto.
  - destruct (abs_lt_truth _ _) as [[|]|]; cbn [a_su a_vel set_prof fst]; auto.
    destruct (s_floor _); cbn [fst]; auto.
  - destruct (abs_lt_truth _ _) as [[|]|]; auto. destruct (s_floor _); cbn [fst]; auto.
Qed.

Lemma shift_cache_pres : pres (shift_cache c).
Proof.
  intros a H. unfold shift_cache. ub.
  destruct (o_shift _ || o_eff _) eqn:E; auto.
  assert (Hn : I (fst (match eff_inst_res c (s_grid (a_su a)) (a_stamp a) with
     | Ok r => (set_dvel (Some (fst r)) (IdwArr (snd r)) a, Ok tt)
     | Err e => (a, Err e) end))).
  { destruct H as [H1 [H2 [H3 H4]]]. destruct (eff_inst_res _ _ _) as [[v d]|] eqn:Er; cbn.
    - unfold inv, dv_ok. cbn. repeat split; auto. right. left. split; auto.
      exists v, d. rewrite H1, H2 in Er. repeat split; auto. discriminate.
    - repeat split; auto. }
  destruct (a_dvel a), (a_idw a); cbn [fst]; auto;
    destruct (eff_inst_res _ _ _); auto.
Qed.

Lemma calc_pres : pres (calculate_spectral_cube c).
Proof.
  intros a H. unfold calculate_spectral_cube.
  unfold bindS at 1, getS at 1.
  apply pres_bind; auto using sigma_options_pres.
  intros _ b Hb. unfold bindS at 1, getS at 1.
  apply pres_bind; auto using shift_cache_pres.
  intros _ d Hd. unfold bindS at 1, getS at 1. ub.
  destruct (shift_V _ _ _); auto.
  destruct (add_sigma_collapse_z _ _ _ _ _ _ _ _ _ _ _ _ _ _ _); cbn [fst]; auto.
Qed.

Lemma conv_pres : pres (convolve_spectral_cube_PSF c).
Proof.
  intros a H. unfold convolve_spectral_cube_PSF. ub.
  destruct (a_cube a); auto. destruct (PSF_convolve _ _ _); cbn [fst]; auto.
Qed.

Lemma trim_pres : pres (trim_downsample_spectral_cube c).
Proof.
  intros a H. unfold trim_downsample_spectral_cube. ub.
  destruct (i_slitmask _); auto. destruct (a_conv a); auto.
  destruct (cut _ _ _). destruct (cut _ _ _).
  destruct (o_rebin _); [destruct (rebin2 _ _ _)|]; cbn [fst]; auto.
Qed.

Lemma idw_float_inv a x : I a -> (o_shift (c_opt c) && o_eff (c_opt c) = false) ->
  I (set_dvel (a_dvel a) (IdwFloat x) a) \/ (a_dvel a = None /\ o_shift (c_opt c) || o_eff (c_opt c) = true).
Proof.
  intros [H1 [H2 [H3 H4]]] Hb. unfold inv, dv_ok in *. cbn.
  destruct H3 as [[Hd Hi]|[[Hs [v [d [He [Hd [Hi Hx]]]]]]|[Hs Hd]]].
  - destruct (o_shift _ || o_eff _) eqn:E; [right; auto|].
    left. repeat split; auto.
  - left. repeat split; auto. right. left. split; auto. exists v, d. repeat split; auto; congruence.
  - left. repeat split; auto.
Qed.

(* the offsets have been computed whenever they are needed *)
Definition cached (a : aper) : Prop :=
  o_shift (c_opt c) || o_eff (c_opt c) = true -> a_dvel a <> None.

Lemma idw_float_pres a x : I a -> cached a -> (o_shift (c_opt c) && o_eff (c_opt c) = false) ->
  I (set_dvel (a_dvel a) (IdwFloat x) a).
Proof.
  intros H Hc Hb. destruct (idw_float_inv a x H Hb) as [|[E1 E2]]; auto.
  exfalso. now apply Hc.
Qed.

Lemma inst_pres a : I a -> cached a -> I (fst (convolve_instrument_resolution c a)).
Proof.
  intros H Hc. unfold convolve_instrument_resolution. ub.
  destruct (o_shift (c_opt c)) eqn:Es.
  - destruct (o_spec (c_opt c)); auto.
    + destruct (o_eff (c_opt c)) eqn:Ee; cbn [negb].
      * destruct (match a_idw a with IdwNone => _ | IdwFloat x => _ | IdwArr l => _ end); auto.
        destruct (fgtb _ _); auto. destruct (a_out a); auto.
        destruct (inst_convol_complete _ _ _); cbn [fst]; auto.
      * set (b := set_dvel _ _ a). assert (I b) by (apply idw_float_pres; auto; rewrite Es, Ee; auto).
        cbn [a_idw b set_dvel]. destruct (fgtb _ _); auto. destruct (a_out b); auto.
        destruct (inst_convol_complete _ _ _); cbn [fst]; auto.
    + destruct (o_eff (c_opt c)) eqn:Ee; cbn [negb].
      * destruct (match a_idw a with IdwNone => _ | IdwFloat x => _ | IdwArr l => _ end); auto.
        destruct (fgtb _ _); auto. destruct (a_out a); auto.
        destruct (inst_convol_complete _ _ _); cbn [fst]; auto.
      * set (b := set_dvel _ _ a). assert (I b) by (apply idw_float_pres; auto; rewrite Es, Ee; auto).
        cbn [a_idw b set_dvel]. destruct (fgtb _ _); auto. destruct (a_out b); auto.
        destruct (inst_convol_complete _ _ _); cbn [fst]; auto.
  - set (b := set_dvel _ _ a). assert (I b) by (apply idw_float_pres; auto; rewrite Es; auto).
    destruct (fgtb _ _); auto. destruct (a_out b); auto.
    destruct (inst_convol_complete _ _ _); cbn [fst]; auto.
Qed.

Lemma downsample_pres : o_adapt (c_opt c) = true -> pres (downsample_to_real_wave c).
Proof.
  intros Ha a H. unfold downsample_to_real_wave. ub.
  destruct (s_real (a_su a)); auto. destruct (a_out a); auto. destruct (rebin2 _ _ _); auto.
  apply inv_wv; auto. congruence.
Qed.

Lemma downsample_real a b : o_adapt (c_opt c) = true -> I a ->
  downsample_to_real_wave c a = (b, Ok tt) -> a_wv b = w.
Proof.
  intros Ha [H1 _]. unfold downsample_to_real_wave. ub. rewrite H1, (Hreal Ha).
  destruct (a_out a); [|discriminate]. destruct (rebin2 _ _ _); [|discriminate].
  intros E. injection E as <-. cbn. now destruct w.
Qed.

(* cached after the cube has been computed *)
Lemma calc_cached a b : I a -> calculate_spectral_cube c a = (b, Ok tt) -> cached b.
Proof.
  intros H E. unfold calculate_spectral_cube in E.
  unfold bindS at 1, getS at 1 in E.
  assert (Hs := sigma_options_pres a H).
  destruct (sigma_options c a) as [a1 [u|]] eqn:E1; cbn [fst] in Hs;
    [rewrite (bindS_Ok _ _ _ _ _ E1) in E | rewrite (bindS_Err _ _ _ _ _ E1) in E; discriminate].
  unfold bindS at 1, getS at 1 in E.
  assert (Hs2 := shift_cache_pres a1 Hs).
  destruct (shift_cache c a1) as [a2 [u2|]] eqn:E2; cbn [fst] in Hs2;
    [rewrite (bindS_Ok _ _ _ _ _ E2) in E | rewrite (bindS_Err _ _ _ _ _ E2) in E; discriminate].
  unfold bindS, getS, modS, liftR in E.
  destruct (shift_V _ _ _); [|discriminate].
  destruct (add_sigma_collapse_z _ _ _ _ _ _ _ _ _ _ _ _ _ _ _); [|discriminate].
  injection E as <-. unfold cached. cbn. intros Hc.
  revert E2. unfold shift_cache. rewrite Hc. ub.
  destruct (a_dvel a1) eqn:Ed; [destruct (a_idw a1)|]; intros E2.
  2,3: injection E2 as <- <-; congruence.
  1,2: destruct (eff_inst_res _ _ _); [|discriminate]; injection E2 as <- <-; discriminate.
Qed.

Lemma keep_cached_conv a b : convolve_spectral_cube_PSF c a = (b, Ok tt) -> a_dvel b = a_dvel a.
Proof.
  unfold convolve_spectral_cube_PSF. ub. destruct (a_cube a); [|discriminate].
  destruct (PSF_convolve _ _ _); [|discriminate]. intros E. now injection E as <-.
Qed.
Lemma keep_cached_trim a b : trim_downsample_spectral_cube c a = (b, Ok tt) -> a_dvel b = a_dvel a.
Proof.
  unfold trim_downsample_spectral_cube. ub.
  destruct (i_slitmask _); [discriminate|]. destruct (a_conv a); [|discriminate].
  destruct (cut _ _ _). destruct (cut _ _ _).
  destruct (o_rebin _); [destruct (rebin2 _ _ _)|]; intros E; try discriminate; now injection E as <-.
Qed.

Lemma eval_pres a : I a -> I (fst (do_model_calcs c a)) /\
  (snd (do_model_calcs c a) = Ok tt -> a_wv (fst (do_model_calcs c a)) = w).
Proof.
  intros H. pose proof downsample_real as DR.
  destruct (do_model_calcs c a) as [z r] eqn:E. cbn [fst snd].
  unfold do_model_calcs in E.
  pose proof (update_theta_pres a H) as H1.
  destruct (update_theta c a) as [a1 [u1|]] eqn:E1; cbn [fst] in H1; [|discriminate].
  rewrite (bindS_Ok _ _ _ _ _ E1) in E. clear E1.
  assert (Hu : pres (if o_adapt (c_opt c) then check_do_upsample_wave c else ret tt)).
  { destruct (o_adapt (c_opt c)) eqn:Ea; [apply upsample_pres; auto|apply pres_ret]. }
  pose proof (Hu a1 H1) as H2.
  destruct ((if o_adapt (c_opt c) then check_do_upsample_wave c else ret tt) a1) as [a2 [u2|e]] eqn:E2; cbn [fst] in H2;
    [rewrite (bindS_Ok _ _ _ _ _ E2) in E|rewrite (bindS_Err _ _ _ _ _ E2) in E; injection E as <- <-; split; [auto|discriminate]].
  pose proof (calc_pres a2 H2) as H3.
  destruct (calculate_spectral_cube c a2) as [a3 [u3|e]] eqn:E3; cbn [fst] in H3;
    [rewrite (bindS_Ok _ _ _ _ _ E3) in E|rewrite (bindS_Err _ _ _ _ _ E3) in E; injection E as <- <-; split; [auto|discriminate]].
  destruct u3. pose proof (calc_cached _ _ H2 E3) as C3.
  pose proof (conv_pres a3 H3) as H4.
  destruct (convolve_spectral_cube_PSF c a3) as [a4 [u4|e]] eqn:E4; cbn [fst] in H4;
    [rewrite (bindS_Ok _ _ _ _ _ E4) in E|rewrite (bindS_Err _ _ _ _ _ E4) in E; injection E as <- <-; split; [auto|discriminate]].
  destruct u4. pose proof (keep_cached_conv _ _ E4) as D4.
  pose proof (trim_pres a4 H4) as H5.
  destruct (trim_downsample_spectral_cube c a4) as [a5 [u5|e]] eqn:E5; cbn [fst] in H5;
    [rewrite (bindS_Ok _ _ _ _ _ E5) in E|rewrite (bindS_Err _ _ _ _ _ E5) in E; injection E as <- <-; split; [auto|discriminate]].
  destruct u5. pose proof (keep_cached_trim _ _ E5) as D5.
  assert (C5 : cached a5) by (unfold cached in *; rewrite D5, D4; auto).
  pose proof (inst_pres a5 H5 C5) as H6.
  destruct (convolve_instrument_resolution c a5) as [a6 [u6|e]] eqn:E6; cbn [fst] in H6;
    [rewrite (bindS_Ok _ _ _ _ _ E6) in E|rewrite (bindS_Err _ _ _ _ _ E6) in E; injection E as <- <-; split; [auto|discriminate]].
  assert (Hd : pres (if o_adapt (c_opt c) then downsample_to_real_wave c else ret tt)).
  { destruct (o_adapt (c_opt c)) eqn:Ea; [apply downsample_pres; auto|apply pres_ret]. }
  pose proof (Hd a6 H6) as H7.
  destruct ((if o_adapt (c_opt c) then downsample_to_real_wave c else ret tt) a6) as [a7 [u7|e]] eqn:E7; cbn [fst] in H7;
    [rewrite (bindS_Ok _ _ _ _ _ E7) in E|rewrite (bindS_Err _ _ _ _ _ E7) in E; injection E as <- <-; split; [auto|discriminate]].
  destruct u7.
  assert (W : a_wv a7 = w).
  { revert E7. case_eq (o_adapt (c_opt c)); intros Ea E7.
    - eapply (DR a6); eauto. 
    - apply H7. exact Ea. }
  revert E. ub. destruct (a_out a7); intros E; injection E as <- <-; split; auto; discriminate.
Qed.

(* two evaluations with the same parameters from states satisfying the invariant *)
Definition agree (a b : aper) : Prop :=
  I a /\ I b /\ a_theta a = a_theta b /\ a_vel a = a_vel b /\ a_disp a = a_disp b /\ a_wv a = a_wv b.

Definition rel (P Q : aper -> aper -> Prop) (m : ST aper unit) : Prop :=
  forall a b, P a b -> snd (m a) = snd (m b) /\ (snd (m a) = Ok tt -> Q (fst (m a)) (fst (m b))).

Lemma rel_bind P Q T m (f : unit -> ST aper unit) :
  rel P Q m -> rel Q T (f tt) -> rel P T (bindS m f).
Proof.
  intros Hm Hf a b H. destruct (Hm a b H) as [E1 E2]. unfold bindS.
  destruct (m a) as [a' [[]|e]], (m b) as [b' [[]|e']]; cbn in *; try discriminate.
  - apply Hf. auto.
  - split; auto. discriminate.
Qed.

Lemma agree_su a b : agree a b -> a_su a = a_su b /\ a_stamp a = a_stamp b.
Proof. intros [[H1 [H2 _]] [[H3 [H4 _]] _]]. split; congruence. Qed.

Lemma update_theta_rel : rel (fun a b => I a /\ I b /\ a_theta a = a_theta b /\ a_wv a = a_wv b)
  agree (update_theta c).
Proof.
  intros a b [Ha [Hb [Ht Hw]]]. cbn. split; auto. intros _.
  unfold agree. cbn. rewrite Ht. auto 10.
Qed.

Lemma upsample_rel : rel agree agree (if o_adapt (c_opt c) then check_do_upsample_wave c else ret tt).
Proof.
  destruct (o_adapt (c_opt c)) eqn:Ea; [|intros a b H; cbn; auto].
  intros a b H. destruct (agree_su _ _ H) as [S1 S2].
  pose proof (upsample_pres Ea a (proj1 H)) as Pa.
  pose proof (upsample_pres Ea b (proj1 (proj2 H))) as Pb.
  destruct H as [Ha [Hb [Ht [Hv [Hd Hw]]]]].
  revert Pa Pb. unfold check_do_upsample_wave. ub. rewrite <- Hd, <- S1.
  destruct (abs_lt_truth _ _) as [[|]|]; cbn [fst snd]; intros; [|unfold agree; auto 10|split; [auto|discriminate]].
  destruct (s_real (a_su a)); cbn [fst snd] in *; [|split; [auto|discriminate]].
  rewrite <- Hw in *.
  destruct (np_min _); cbn [fst snd] in *; [|split; [auto|discriminate]].
  destruct (np_max _); cbn [fst snd] in *; [|split; [auto|discriminate]].
  destruct (int_round _); cbn [fst snd] in *; [|split; [auto|discriminate]].
  destruct (_ <? 0)%Z; cbn [fst snd] in *; [split; [auto|discriminate]|].
  split; auto. intros _. unfold agree. cbn. auto 10.
Qed.

Lemma sigma_options_rel : rel agree agree (sigma_options c).
Proof.
  intros a b H. destruct (agree_su _ _ H) as [S1 S2].
  pose proof (sigma_options_pres a (proj1 H)) as Pa.
  pose proof (sigma_options_pres b (proj1 (proj2 H))) as Pb.
  destruct H as [Ha [Hb [Ht [Hv [Hd Hw]]]]].
  revert Pa Pb. unfold sigma_options. ub.
  destruct (o_abs _), (o_floor _); cbn [fst snd set_prof a_disp a_su a_vel]; rewrite <- ?Hd, <- ?S1, <- ?Hv; intros Pa Pb.
  - destruct (abs_lt_truth _ _) as [[|]|]; cbn [fst snd] in *; [destruct (s_floor _)| |split; [auto|discriminate]];
      cbn [fst snd] in *; split; auto; intros _; unfold agree; cbn; auto 10.
  - split; auto. intros _; unfold agree; cbn; auto 10.
  - destruct (abs_lt_truth _ _) as [[|]|]; cbn [fst snd] in *; [destruct (s_floor _)| |split; [auto|discriminate]];
      cbn [fst snd] in *; split; auto; intros _; unfold agree; cbn; auto 10.
  - split; auto. intros _; unfold agree; cbn; auto 10.
Qed.

Definition agree2 (a b : aper) : Prop := agree a b /\ cached a /\ cached b.

Lemma agree2_dvel a b : agree2 a b -> a_dvel a = a_dvel b /\
  (o_shift (c_opt c) && o_eff (c_opt c) = true -> a_idw a = a_idw b).
Proof.
  intros [[Ha [Hb _]] [Ca Cb]]. unfold cached in *.
  destruct Ha as [A1 [A2 [A3 _]]], Hb as [B1 [B2 [B3 _]]].
  unfold dv_ok in *. destruct (o_shift (c_opt c) || o_eff (c_opt c)) eqn:E.
  - destruct A3 as [[X _]|[[_ [v [d [X1 [X2 [X3 X4]]]]]]|[X _]]]; [now exfalso; apply Ca| |discriminate].
    destruct B3 as [[Y _]|[[_ [v' [d' [Y1 [Y2 [Y3 Y4]]]]]]|[Y _]]]; [now exfalso; apply Cb| |discriminate].
    rewrite X1 in Y1. injection Y1 as <- <-. split; [congruence|].
    intros Z. rewrite X4, Y4; auto.
  - assert (a_dvel a = None) by (destruct A3 as [[? _]|[[? _]|[_ ?]]]; auto; discriminate).
    assert (a_dvel b = None) by (destruct B3 as [[? _]|[[? _]|[_ ?]]]; auto; discriminate).
    split; [congruence|]. intros Z. destruct (o_shift (c_opt c)), (o_eff (c_opt c)); discriminate.
Qed.

Lemma shift_cache_rel : rel agree agree2 (shift_cache c).
Proof.
  intros a b H. destruct (agree_su _ _ H) as [S1 S2].
  pose proof (shift_cache_pres a (proj1 H)) as Pa.
  pose proof (shift_cache_pres b (proj1 (proj2 H))) as Pb.
  destruct H as [Ha [Hb [Ht [Hv [Hd Hw]]]]].
  revert Pa Pb. unfold shift_cache. ub. unfold agree2, cached, agree.
  destruct (o_shift _ || o_eff _) eqn:E; cbn [fst snd]; intros Pa Pb;
    [|split; auto; intros _; csplit; auto; discriminate].
  assert (Xa : (exists v, a_dvel a = Some v /\ a_idw a <> IdwNone /\ exists d, eff_inst_res c (s_grid (a_su a)) (a_stamp a) = Ok (v, d)) \/ a_dvel a = None).
  { destruct Ha as [A1 [A2 [A3 _]]]. rewrite A1, A2. unfold dv_ok in A3.
    destruct A3 as [[? _]|[[_ [v [d [X1 [X2 [X3 X4]]]]]]|[_ ?]]]; auto. left; exists v; csplit; auto. exists d; auto. }
  assert (Xb : (exists v, a_dvel b = Some v /\ a_idw b <> IdwNone /\ exists d, eff_inst_res c (s_grid (a_su a)) (a_stamp a) = Ok (v, d)) \/ a_dvel b = None).
  { rewrite S1, S2. destruct Hb as [A1 [A2 [A3 _]]]. rewrite A1, A2. unfold dv_ok in A3.
    destruct A3 as [[? _]|[[_ [v [d [X1 [X2 [X3 X4]]]]]]|[_ ?]]]; auto. left; exists v; csplit; auto. exists d; auto. }
  rewrite <- S1, <- S2 in *.
  destruct Xa as [[v [Ea [Ia [d Da]]]]|Ea]; destruct Xb as [[v' [Eb [Ib [d' Db]]]]|Eb];
    rewrite Ea in *; rewrite Eb in *.
  - destruct (a_idw a); [congruence| |]; destruct (a_idw b); try congruence; cbn [fst snd];
      (split; [reflexivity|]; intros _; csplit; auto; congruence).
  - destruct (a_idw a); [congruence| |]; rewrite Da in *; cbn [fst snd] in *;
      (split; [reflexivity|]; intros _; csplit; cbn; auto; try congruence; try apply Ha; try apply Pb).
  - destruct (a_idw b); [congruence| |]; rewrite Db in *; cbn [fst snd] in *;
      (split; [reflexivity|]; intros _; csplit; cbn; auto; try congruence; try apply Hb; try apply Pa).
  - destruct (eff_inst_res _ _ _); cbn [fst snd] in *; (split; [reflexivity|]); [|discriminate].
    intros _; csplit; cbn; auto; try congruence; try apply Pa; try apply Pb.
Qed.

Lemma V_cube_ext a b : a_su a = a_su b -> a_vel a = a_vel b -> V_cube c a = V_cube c b.
Proof. unfold V_cube. now intros -> ->. Qed.

Definition agree3 (a b : aper) : Prop := agree2 a b /\ a_cube a = a_cube b.

Definition calc_tail3 V g dsp : ST aper unit :=
  sdo a3 <- getS; sdo V2 <- liftR (shift_V c a3 V);
  sdo cube <- liftR (add_sigma_collapse_z (I_wide g) V2
         (mk3 (nZ g) (nY g) (nX g) (fun m j k =>
              p_disp (c_prof c) dsp (at3 (r_cube g) m j k) (at3 (zint g) m j k)))
         (w_arr (a_wv a3)) (gz g)
      (g_rest (c_gal c)) (g_ratio (c_gal c)) (w_n (a_wv a3)) (nZ g) (nY g) (nX g) (Fin (delt_z g))
      (w_I4 (a_wv a3)) (w_ref (a_wv a3)) (o_spec (c_opt c)));
  modS (set_cube (Some cube)).
Definition calc_tail2 V g : ST aper unit :=
  fun a => (sdo u <- shift_cache c; calc_tail3 V g (a_disp a)) a.
Definition calc_tail V g : ST aper unit := sdo u <- sigma_options c; calc_tail2 V g.

Lemma calc_unfold a :
  calculate_spectral_cube c a = calc_tail (V_cube c a) (s_grid (a_su a)) a.
Proof. reflexivity. Qed.

Lemma tail3_rel V g dsp : rel agree2 agree3 (calc_tail3 V g dsp).
Proof.
  intros a b H. unfold calc_tail3. ub.
  destruct (agree2_dvel _ _ H) as [D1 _]. destruct (agree_su _ _ (proj1 H)) as [S1 S2].
  assert (EW : a_wv a = a_wv b) by apply (proj1 H).
  assert (E : shift_V c a V = shift_V c b V) by (unfold shift_V; now rewrite D1, S1).
  rewrite E, EW. destruct (shift_V c b V); cbn [fst snd]; [|split; [auto|discriminate]].
  destruct (add_sigma_collapse_z _ _ _ _ _ _ _ _ _ _ _ _ _ _ _); cbn [fst snd]; [|split; [auto|discriminate]].
  split; auto. intros _. destruct H as [[Ha [Hb [Ht [Hv [Hd Hw]]]]] [Ca Cb]].
  split; [|reflexivity]. split; [|split; [exact Ca|exact Cb]].
  unfold agree. cbn. auto 10.
Qed.

Lemma tail2_rel V g : rel agree agree3 (calc_tail2 V g).
Proof.
  intros a b H. unfold calc_tail2.
  assert (ED : a_disp a = a_disp b) by apply H. rewrite <- ED.
  apply (rel_bind _ _ _ _ (fun _ => calc_tail3 V g (a_disp a)) shift_cache_rel (tail3_rel V g _) a b H).
Qed.

Lemma calc_rel : rel agree agree3 (calculate_spectral_cube c).
Proof.
  intros a b H. destruct (agree_su _ _ H) as [S1 S2]. rewrite !calc_unfold.
  assert (EV : V_cube c a = V_cube c b) by (apply V_cube_ext; [auto|apply H]).
  rewrite <- S1, <- EV.
  apply (rel_bind _ _ _ _ (fun _ => calc_tail2 _ _) sigma_options_rel (tail2_rel _ _) a b H).
Qed.

Definition agree4 (a b : aper) : Prop := agree3 a b /\ a_conv a = a_conv b.

Lemma conv_rel : rel agree3 agree4 (convolve_spectral_cube_PSF c).
Proof.
  intros a b H. pose proof H as [[[Ha [Hb [Ht [Hv [Hd Hw]]]]] [Ca Cb]] Hc].
  destruct (agree_su a b) as [S1 S2]; [apply H|].
  unfold convolve_spectral_cube_PSF. ub. rewrite <- Hc, <- S2.
  destruct (a_cube a) eqn:Ec; cbn [fst snd]; [|split; [auto|discriminate]].
  destruct (PSF_convolve _ _ _); cbn [fst snd]; [|split; [auto|discriminate]].
  split; auto. intros _. unfold agree4, agree3, agree2, agree, cached in *. cbn. intuition congruence.
Qed.

Definition agree5 (a b : aper) : Prop := agree4 a b /\ a_out a = a_out b.

Lemma trim_rel : rel agree4 agree5 (trim_downsample_spectral_cube c).
Proof.
  intros a b H. pose proof H as [[[[Ha [Hb [Ht [Hv [Hd Hw]]]]] [Ca Cb]] Hc] Hcv].
  destruct (agree_su a b) as [S1 S2]; [apply H|].
  unfold trim_downsample_spectral_cube. ub. rewrite <- Hcv, <- S1, <- Hw.
  destruct (i_slitmask _); cbn [fst snd]; [split; [auto|discriminate]|].
  destruct (a_conv a) eqn:Ec; cbn [fst snd]; [|split; [auto|discriminate]].
  destruct (cut _ _ _). destruct (cut _ _ _).
  destruct (o_rebin _); [destruct (rebin2 _ _ _)|]; cbn [fst snd]; (split; [auto|try discriminate]);
    intros _; unfold agree5, agree4, agree3, agree2, agree, cached in *; cbn;
    csplit; auto; try apply Ha; try apply Hb; apply Ca || apply Cb.
Qed.

Lemma inst_cached a b : cached a -> convolve_instrument_resolution c a = (b, Ok tt) -> a_dvel b = a_dvel a.
Proof.
  intros _. unfold convolve_instrument_resolution. ub.
  destruct (o_shift (c_opt c)); [destruct (o_spec (c_opt c)); try discriminate; destruct (o_eff (c_opt c)); cbn|cbn].
  all: repeat match goal with
    | |- context [match ?x with _ => _ end] => destruct x; try discriminate
    | |- context [if ?x then _ else _] => destruct x; try discriminate
    end; intros E; try discriminate; injection E as <-; reflexivity.
Qed.

Lemma inst_rel : rel agree5 (fun a b => agree2 a b /\ a_out a = a_out b /\ a_cube a = a_cube b /\ a_conv a = a_conv b /\ a_idw a = a_idw b)
  (convolve_instrument_resolution c).
Proof.
  intros a b H. pose proof H as [[[[[Ha [Hb [Ht [Hv [Hd Hw]]]]] [Ca Cb]] Hc] Hcv] Ho].
  pose proof (inst_pres a Ha Ca) as Pa. pose proof (inst_pres b Hb Cb) as Pb.
  destruct (agree_su a b) as [S1 S2]; [apply H|].
  destruct (agree2_dvel a b) as [D1 D2]; [apply H|].
  revert Pa Pb. unfold convolve_instrument_resolution. ub.
  destruct (o_shift (c_opt c)) eqn:Es;
  [destruct (o_eff (c_opt c)) eqn:Ee|]; destruct (o_spec (c_opt c)) eqn:Esp;
    cbn [fst snd negb set_dvel a_idw a_out a_wv a_dvel a_su].
  all: rewrite <- ?S1, <- ?Hw, <- ?D1, <- ?Ho; try rewrite <- (D2 eq_refl); intros Pa Pb.
  all: try (split; [reflexivity|discriminate]).
  1,2: destruct (match a_idw a with IdwNone => _ | IdwFloat x => _ | IdwArr l => _ end);
          cbn [fst snd] in *; [|split; [auto|discriminate]].
  all: destruct (fgtb _ _); cbn [fst snd] in *;
    [|split; auto; intros _; unfold agree2, agree, cached in *; cbn; rewrite <- ?D1; auto 12].
  all: destruct (a_out a) eqn:Eo; cbn [fst snd] in *; [|split; [auto|discriminate]].
  all: destruct (inst_convol_complete _ _ _); cbn [fst snd] in *; [|split; [auto|discriminate]].
  all: split; auto; intros _; unfold agree2, agree, cached in *; cbn; rewrite <- ?D1; auto 12.
Qed.

Definition agree6 (a b : aper) : Prop :=
  agree2 a b /\ a_out a = a_out b /\ a_cube a = a_cube b /\ a_conv a = a_conv b /\ a_idw a = a_idw b.

Lemma downsample_rel : rel agree6 agree6
  (if o_adapt (c_opt c) then downsample_to_real_wave c else ret tt).
Proof.
  case_eq (o_adapt (c_opt c)); intros Ea; [|intros a b H; cbn; auto].
  intros a b H. pose proof H as [[[Ha [Hb [Ht [Hv [Hd Hw]]]]] [Ca Cb]] [Ho [Hc [Hcv Hi]]]].
  pose proof (downsample_pres Ea a Ha) as Pa. pose proof (downsample_pres Ea b Hb) as Pb.
  destruct (agree_su a b) as [S1 S2]; [apply H|].
  revert Pa Pb. unfold downsample_to_real_wave. ub. rewrite <- S1, <- Ho.
  destruct (s_real (a_su a)); cbn [fst snd]; [|split; [auto|discriminate]].
  destruct (a_out a); cbn [fst snd]; [|split; [auto|discriminate]].
  destruct (rebin2 _ _ _); cbn [fst snd]; [|split; [auto|discriminate]].
  intros Pa Pb. split; auto. intros _. unfold agree6, agree2, agree, cached in *. cbn. auto 12.
Qed.

Definition same_eval (a b : aper) : Prop := a = b.

Lemma eval_rel a b : I a -> I b -> a_theta a = a_theta b -> a_wv a = a_wv b ->
  snd (do_model_calcs c a) = snd (do_model_calcs c b) /\
  (snd (do_model_calcs c a) = Ok tt -> fst (do_model_calcs c a) = fst (do_model_calcs c b)).
Proof.
  intros Ha Hb Ht Hw.
  enough (R : rel (fun a b => I a /\ I b /\ a_theta a = a_theta b /\ a_wv a = a_wv b) same_eval
    (do_model_calcs c)) by (apply R; auto).
  unfold do_model_calcs.
  eapply rel_bind; [apply update_theta_rel|].
  eapply rel_bind; [apply upsample_rel|].
  eapply rel_bind; [apply calc_rel|].
  eapply rel_bind; [apply conv_rel|].
  eapply rel_bind; [apply trim_rel|].
  eapply rel_bind; [apply inst_rel|].
  eapply rel_bind; [apply downsample_rel|].
  clear. intros a b H. pose proof H as [[[Ha [Hb [Ht [Hv [Hd Hw]]]]] [Ca Cb]] [Ho [Hc [Hcv Hi]]]].
  destruct (agree_su a b) as [S1 S2]; [apply H|].
  destruct (agree2_dvel a b) as [D1 D2]; [apply H|].
  ub. rewrite <- Ho. destruct (a_out a) eqn:Eo; cbn [fst snd]; [|split; [auto|discriminate]].
  split; auto. intros _. unfold same_eval, set_model. f_equal; auto; congruence.
Qed.
End Steps.

(* setting up depends on the parameter vector only through its last two entries *)
Lemma setup_grid_ext c th th' :
  getz th (-1) = getz th' (-1) -> getz th (-2) = getz th' (-2) ->
  setup_model_grid c th = setup_model_grid c th'.
Proof. intros H1 H2. unfold setup_model_grid. now rewrite H1, H2. Qed.

Definition reset_theta (th : list fl) (a : aper) : aper :=
  mkaper (a_su a) th [] [] (a_wv a) None IdwNone None None None None (a_stamp a).

Lemma setup_calcs_ext c th th' a :
  getz th (-1) = getz th' (-1) -> getz th (-2) = getz th' (-2) ->
  setup_calcs c th = Ok a -> setup_calcs c th' = Ok (set_theta th' a).
Proof.
  intros H1 H2. unfold setup_calcs. rewrite (setup_grid_ext c th' th) by auto.
  destruct (setup_model_grid c th) as [[g w]|]; [|discriminate]. cbn [bind].
  intros E. injection E as <-. reflexivity.
Qed.

Lemma setup_calcs_inv c th a : setup_calcs c th = Ok a ->
  exists w, (o_adapt (c_opt c) = true -> s_real (a_su a) = Some w) /\ a_wv a = w /\
            inv c (a_su a) w (a_stamp a) a /\ a_theta a = th.
Proof.
  unfold setup_calcs. destruct (setup_model_grid c th) as [[g w]|]; [|discriminate]. cbn [bind].
  intros E. injection E as <-. exists w. cbn. repeat split.
  - now intros ->.
  - left. split; reflexivity.
Qed.

