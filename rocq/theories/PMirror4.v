(* Proofs: the same at the level of the fit, and the other degeneracies. *)
From Coq Require Import Reals Lra Lia List Bool Arith ZArith Permutation FunctionalExtensionality.
From Verif Require MProf.
From Verif Require Import PyFloat PyBase Arr PyNum MParams MKernels MAper2D SMirror PKernels PAper1D PAper2D PMirror PMirror2 PMirror3.
Import ListNotations.
Local Open Scope R_scope.

(* updating the free parameters *)
Definition phi1 (k : nat) (x : fl) : fl := if Nat.eqb k 0 then fneg x else x.
Lemma mapi_from_id {A} (f : nat -> A -> A) : forall l k, (forall i x, (k <= i)%nat -> f i x = x) -> mapi_from k f l = l.
Proof. induction l as [|a l IH]; intros k H; [reflexivity|]. cbn. rewrite H by lia. rewrite IH; [reflexivity|]. intros; apply H; lia. Qed.
Lemma flip1_mapi l : flip1 l = mapi phi1 l.
Proof.
  destruct l as [|a l]; [reflexivity|]. unfold mapi. cbn. f_equal. symmetry. apply mapi_from_id. intros i x H. unfold phi1.
  destruct (Nat.eqb_spec i 0); [lia|reflexivity].
Qed.
Lemma mapi_mapi_from {A B C} (f : nat -> A -> B) (g : nat -> B -> C) : forall l k, mapi_from k g (mapi_from k f l) = mapi_from k (fun i x => g i (f i x)) l.
Proof. induction l as [|a l IH]; intros k; [reflexivity|]. cbn. now rewrite IH. Qed.
Lemma mapi_ext_from {A B} (f g : nat -> A -> B) : (forall i x, f i x = g i x) -> forall l k, mapi_from k f l = mapi_from k g l.
Proof. intros H. induction l as [|a l IH]; intros k; [reflexivity|]. cbn. now rewrite H, IH. Qed.
Lemma update_loop_phi phi n vary tf : (forall k, (k < n)%nat -> getn vary k = Ok true) -> (forall k x, (n <= k)%nat -> phi k x = x) ->
  forall len i j th, (i = j \/ (n <= i /\ n <= j)%nat) ->
  update_loop (seq i len) j vary (mapi phi tf) (mapi phi th) =
  (mapi phi (fst (update_loop (seq i len) j vary tf th)), snd (update_loop (seq i len) j vary tf th)).
Proof.
  intros Hv Hp. induction len as [|len IH]; intros i j th Hij; [reflexivity|]. cbn [seq update_loop].
  assert (Hg : getn (mapi phi tf) j = match getn tf j with Ok x => Ok (phi j x) | Err e => Err e end).
  { unfold getn. rewrite mapi_nth. destruct (nth_error tf j); reflexivity. }
  assert (St : forall x, mapi (fun k y => if Nat.eqb k i then phi j x else y) (mapi phi th) = mapi phi (mapi (fun k y => if Nat.eqb k i then x else y) th)).
  { intros x. unfold mapi. rewrite !mapi_mapi_from. apply mapi_ext_from. intros k y. destruct (Nat.eqb_spec k i); [|reflexivity]. subst k.
    destruct Hij as [->|[A B]]; [reflexivity|now rewrite !Hp]. }
  destruct (getn vary i) as [[]|e] eqn:E; [|apply IH; destruct (Nat.lt_ge_cases i n) as [L|L]; [rewrite Hv in E by exact L; discriminate|right; lia]|reflexivity].
  rewrite Hg. destruct (getn tf j) as [x|e]; [|reflexivity]. rewrite St. apply IH. lia.
Qed.
Lemma update_loop_length : forall is j vary tf th, length (fst (update_loop is j vary tf th)) = length th.
Proof.
  induction is as [|i is IH]; intros j vary tf th; [reflexivity|]. cbn [update_loop]. destruct (getn vary i) as [[]|]; [|apply IH|reflexivity].
  destruct (getn tf j); [|reflexivity]. rewrite IH. apply mapi_length.
Qed.
Lemma update_flip1 vs tf th : update_parameters (flip1 th) (true :: vs) (flip1 tf) =
  (flip1 (fst (update_parameters th (true :: vs) tf)), snd (update_parameters th (true :: vs) tf)).
Proof.
  unfold update_parameters. rewrite !flip1_mapi, mapi_length. apply (update_loop_phi phi1 1); [|intros [|k] x H; [lia|reflexivity]|now left].
  intros [|k] H; [reflexivity|lia].
Qed.

(* the objects keep their pattern of free parameters *)
Lemma km_update_vary c tf k : k_vary (fst (km_update c tf k)) = k_vary k.
Proof.
  unfold km_update. destruct (negb _); [reflexivity|]. destruct (update_parameters _ _ _) as [t [[]|e]]; [|reflexivity].
  unfold km_update_aper. cbn [k_aper k_theta k_vary k_noscale k_model]. destruct (k_aper k); [|reflexivity]. destruct (aper_update _ _ _) as [b [[]|e]]; [|reflexivity].
  unfold store_model. cbn [k_noscale]. destruct (a_model b); [|reflexivity]. destruct (k_noscale k); [reflexivity|]. destruct (scale_model _ _); reflexivity.
Qed.
Lemma km_llike_vary c tf k : k_vary (fst (km_llike c k tf)) = k_vary k.
Proof.
  unfold km_llike. pose proof (km_update_vary c tf k) as H. destruct (km_update c tf k) as [k' [[]|e]]; cbn [fst] in *; [|exact H].
  destruct (k_model k'); exact H.
Qed.
Lemma km_make_vary c tf k : k_vary (fst (km_make c tf k)) = k_vary k.
Proof.
  unfold km_make. destruct (negb _); [reflexivity|]. destruct (update_parameters _ _ _) as [t [[]|e]]; [|reflexivity]. cbn [k_aper k_stamp].
  destruct (k_aper k).
  - unfold km_update_aper. cbn [k_aper k_theta k_vary k_noscale k_model]. destruct (aper_update _ _ _) as [b [[]|e]]; [|reflexivity].
    unfold store_model. cbn [k_noscale]. destruct (a_model b); [|reflexivity]. destruct (k_noscale k); [reflexivity|]. destruct (scale_model _ _); reflexivity.
  - destruct (aper_new _ _ _) as [st [b|e]]; [|reflexivity].
    unfold store_model. cbn [k_noscale]. destruct (a_model b); [|reflexivity]. destruct (k_noscale k); [reflexivity|]. destruct (scale_model _ _); reflexivity.
Qed.

Lemma Forall2_impl_ {A B} (R S : A -> B -> Prop) l m : (forall a b, R a b -> S a b) -> Forall2 R l m -> Forall2 S l m.
Proof. induction 2; constructor; auto. Qed.
(* a sequence of evaluations *)
Lemma seq_rel G G' ins o P n ren (Gam : grid -> grid -> Prop) (Th : list fl -> list fl -> Prop) : reorders n ren -> g_rest G' = g_rest G -> g_ratio G' = g_ratio G -> g_data G' = g_data G ->
  (forall g g', Gam g g' -> grel P n ren g g') ->
  (forall th th', Th th th' -> firstn (p_ndisp P) (skipn (p_nvel P) th') = firstn (p_ndisp P) (skipn (p_nvel P) th)) ->
  (forall g g' th th', Gam g g' -> Th th th' -> vrel P n ren g g' (firstn (p_nvel P) th) (firstn (p_nvel P) th')) ->
  forall tfs tfs' k k', krel n ren Gam Th k k' ->
  Forall2 (fun tf tf' => steps Th k tf tf') tfs tfs' ->
  likelihoods (mkcfg G ins o P) k tfs = likelihoods (mkcfg G' ins o P) k' tfs'.
Proof.
  intros H1 H2 H3 H4 H5 H6 H7. induction tfs as [|tf tfs IH]; intros tfs' k k' K F; inversion F as [|? tf' ? tfs1 F1 F2]; subst; [reflexivity|].
  cbn [likelihoods]. pose proof (km_llike_vary (mkcfg G ins o P) tf k) as V.
  destruct (km_llike_rel G G' ins o P n ren H1 H2 H3 Gam H5 Th H6 H7 H4 k k' tf tf' K F1) as [X Y].
  destruct (km_llike (mkcfg G ins o P) k tf) as [k1 x], (km_llike (mkcfg G' ins o P) k' tf') as [k1' x']. cbn [fst snd] in *. subst x'. f_equal.
  apply IH; [exact X|]. revert F2. apply Forall2_impl_. intros a b [L S]. split; [exact L|]. intros th th' T. rewrite V. now apply S.
Qed.

Definition with_theta (th : list fl) (k : kinmodel) : kinmodel := mkkm th (k_vary k) (k_noscale k) (k_aper k) (k_model k) (k_stamp k).
Lemma turn_steps k vs tf : k_vary k = true :: vs -> steps Tturn k tf (flip1 tf).
Proof.
  intros V. split; [rewrite flip1_mapi; apply mapi_length|]. intros th th' [-> L]. rewrite V, update_flip1. cbn [fst snd]. split; [reflexivity|].
  split; [reflexivity|]. unfold update_parameters. now rewrite update_loop_length.
Qed.
Lemma half_turn_fit c d k vs tf0 tfs : g_dPA (c_gal c) = Fin d -> p_nvel (c_prof c) = 2%nat -> p_vel (c_prof c) = MProf.vel_arctan ->
  two_sided (p_disp (c_prof c)) -> (forall r h, p_int (c_prof c) r (fneg h) = p_int (c_prof c) r h) ->
  (3 <= length (k_theta k))%nat -> k_vary k = true :: vs -> k_aper k = None ->
  let c' := at_angle (Fin (d + 180)) c in
  let k' := mkkm (flip1 (k_theta k)) (k_vary k) (k_noscale k) None (k_model k) (k_stamp k) in
  let p := km_make c tf0 k in let p' := km_make c' (flip1 tf0) k' in
  snd p = snd p' /\ k_model (fst p) = k_model (fst p') /\ likelihoods c (fst p) tfs = likelihoods c' (fst p') (map flip1 tfs).
Proof.
  intros Hd Hn Hv Hs Hi L V A c' k' p p'. set (n := (g_rows (c_gal c) * o_nsub (c_opt c))%nat).
  assert (K : krel n (revz n) (Gturn (c_prof c) n) Tturn k k').
  { repeat split; auto. rewrite A. exact Logic.I. }
  pose proof (km_make_rel (c_gal c) (c_gal c') (c_ins c) (c_opt c) (c_prof c) n (revz n) (rev_reorders n) eq_refl eq_refl (Gturn (c_prof c) n)
     (fun g g' => Gturn_grel (c_prof c) n g g' Hs) Tturn (fun a b => Tturn_disp _ a b Hn) (turn_HV c Hn Hv)) as M.
  rewrite <- (cfg_eta c) in M. specialize (M (turn_HS c d Hd Hs Hi) eq_refl k k' tf0 (flip1 tf0) K (turn_steps k vs tf0 V)).
  destruct M as [M1 M2]. split; [exact M2|]. split; [symmetry; apply M1|].
  pose proof (seq_rel (c_gal c) (c_gal c') (c_ins c) (c_opt c) (c_prof c) n (revz n) (Gturn (c_prof c) n) Tturn (rev_reorders n) eq_refl eq_refl eq_refl
     (fun g g' => Gturn_grel (c_prof c) n g g' Hs) (fun a b => Tturn_disp _ a b Hn) (turn_HV c Hn Hv) tfs (map flip1 tfs) (fst p) (fst p') M1) as Q.
  rewrite <- (cfg_eta c) in Q. apply Q. assert (V2 : k_vary (fst p) = true :: vs) by (unfold p; now rewrite km_make_vary).
  clear Q. induction tfs as [|tf tfs IH]; constructor; [exact (turn_steps (fst p) vs tf V2)|exact IH].
Qed.

(* the same object, other parameters *)
Definition Gsame (S : fl -> Prop) (n : nat) (g g' : grid) : Prop := g' = g /\ nZ g = n /\ S (sini g).
Lemma regrid_eta g : regrid g (r_cube g) (yint g) (zint g) (I_wide g) = g.
Proof. now destruct g. Qed.
Lemma Gsame_grel P S n g g' : Gsame S n g g' -> grel P n (fun m => m) g g'.
Proof.
  intros (-> & N & _). split; [exact N|]. exists (r_cube g), (yint g), (zint g), (I_wide g). rewrite regrid_eta. repeat split.
Qed.
Lemma id_reorders n : reorders n (fun m => m).
Proof. unfold reorders. rewrite map_id. apply Permutation_refl. Qed.
Lemma same_setup c th th' (S : fl -> Prop) : S (sin_i (g_q (c_gal c)) (g_q0 (c_gal c))) ->
  getz th' (-1) = getz th (-1) -> getz th' (-2) = getz th (-2) ->
  let n := (g_rows (c_gal c) * o_nsub (c_opt c))%nat in
  match setup_model_grid c th, setup_model_grid c th' with
  | Ok (g, w), Ok (g', w') => Gsame S n g g' /\ wrel n (fun m => m) w w'
  | Err e, Err e' => e = e'
  | _, _ => False
  end.
Proof.
  intros HS Z1 Z2 n.
  assert (E : setup_model_grid c th' = setup_model_grid c th) by (unfold setup_model_grid; now rewrite Z1, Z2). rewrite E.
  destruct (setup_model_grid c th) as [[g w]|e] eqn:F; [|reflexivity]. unfold setup_model_grid in F.
  destruct (Nat.eqb _ 0); [discriminate|]. destruct (Nat.eqb (slit_npix _ _ _) 0); [discriminate|].
  destruct (getz th (-1)) as [zz|]; [|discriminate]. destruct (getz th (-2)) as [sh|]; [|discriminate]. cbn [bind] in F.
  destruct (match o_spec (c_opt c) with Wave => _ | _ => _ end) as [lam|]; [|discriminate]. cbn [bind] in F. apply (f_equal (fun r => match r with Ok x => x | Err _ => (g, w) end)) in F.
  cbv beta iota in F. apply pair_equal_spec in F. destruct F as [<- <-].
  split; [split; [reflexivity|split; [reflexivity|exact HS]]|]. eexists. cbn [w_arr w_n w_d w_I4 w_ref]. repeat split.
Qed.
Lemma other_parameters c (S : fl -> Prop) (Th : list fl -> list fl -> Prop) :
  S (sin_i (g_q (c_gal c)) (g_q0 (c_gal c))) ->
  (forall th th', Th th th' -> getz th' (-1) = getz th (-1) /\ getz th' (-2) = getz th (-2) /\
     firstn (p_ndisp (c_prof c)) (skipn (p_nvel (c_prof c)) th') = firstn (p_ndisp (c_prof c)) (skipn (p_nvel (c_prof c)) th)) ->
  (forall th th' s r h y, Th th th' -> S s ->
     fmul (fmul (p_vel (c_prof c) (firstn (p_nvel (c_prof c)) th') r h) y) s = fmul (fmul (p_vel (c_prof c) (firstn (p_nvel (c_prof c)) th) r h) y) s) ->
  let n := (g_rows (c_gal c) * o_nsub (c_opt c))%nat in
  (forall th th' st, Th th th' -> same_image (aper_new c th st) (aper_new c th' st)) /\
  (forall k k' tf0 tf0' tfs tfs', krel n (fun m => m) (Gsame S n) Th k k' -> steps Th k tf0 tf0' ->
     Forall2 (fun tf tf' => steps Th k tf tf') tfs tfs' ->
     let p := km_make c tf0 k in let p' := km_make c tf0' k' in
     snd p = snd p' /\ k_model (fst p) = k_model (fst p') /\ likelihoods c (fst p) tfs = likelihoods c (fst p') tfs').
Proof.
  intros HSi HT HV n.
  assert (HVr : forall g g' th th', Gsame S n g g' -> Th th th' -> vrel (c_prof c) n (fun m => m) g g' (firstn (p_nvel (c_prof c)) th) (firstn (p_nvel (c_prof c)) th')).
  { intros g g' th th' (-> & _ & Hs) T m j k _. exact (HV th th' (sini g) _ _ _ T Hs). }
  assert (HD : forall th th', Th th th' -> firstn (p_ndisp (c_prof c)) (skipn (p_nvel (c_prof c)) th') = firstn (p_ndisp (c_prof c)) (skipn (p_nvel (c_prof c)) th)) by (intros; now apply HT).
  assert (HSe : forall th th', Th th th' ->
    match setup_calcs c th, setup_calcs c th' with Ok a, Ok a' => Pre n (fun m => m) (Gsame S n) a a' /\ a_theta a = th /\ a_theta a' = th' | Err e, Err e' => e = e' | _, _ => False end).
  { intros th th' T. apply setup_pre; [reflexivity|reflexivity|apply Gsame_grel|]. destruct (HT th th' T) as (Z1 & Z2 & _). now apply same_setup. }
  split.
  - intros th th' st T.
    pose proof (pre_new (c_gal c) (c_gal c) (c_ins c) (c_opt c) (c_prof c) n (fun m => m) (id_reorders n) eq_refl eq_refl (Gsame S n) (Gsame_grel _ S n) Th HD HVr) as K.
    rewrite <- (cfg_eta c) in K. destruct (K HSe th th' st T) as [X Y]. split; [exact X|].
    destruct (snd (aper_new c th st)), (snd (aper_new c th' st)); try contradiction; [|exact Y]. destruct Y as (? & ? & ? & ? & -> & _). reflexivity.
  - intros k k' tf0 tf0' tfs tfs' K S0 F p p'.
    pose proof (km_make_rel (c_gal c) (c_gal c) (c_ins c) (c_opt c) (c_prof c) n (fun m => m) (id_reorders n) eq_refl eq_refl (Gsame S n) (Gsame_grel _ S n) Th HD HVr) as M.
    rewrite <- (cfg_eta c) in M. destruct (M HSe eq_refl k k' tf0 tf0' K S0) as [M1 M2]. split; [exact M2|]. split; [symmetry; apply M1|].
    pose proof (seq_rel (c_gal c) (c_gal c) (c_ins c) (c_opt c) (c_prof c) n (fun m => m) (Gsame S n) Th (id_reorders n) eq_refl eq_refl eq_refl (Gsame_grel _ S n) HD HVr tfs tfs' (fst p) (fst p') M1) as Q.
    rewrite <- (cfg_eta c) in Q. apply Q. revert F. apply Forall2_impl_. intros a b [L1 L2]. split; [exact L1|]. unfold p. rewrite km_make_vary. exact L2.
Qed.

(* rotation and turnover radius both negative *)
Lemma update_two : forall is j vary a b a' b' u x y x' y' t, (forall i, In i is -> (2 <= i)%nat) -> (2 <= j)%nat ->
  update_loop is j vary (a' :: b' :: u) (x' :: y' :: t) =
  (x' :: y' :: skipn 2 (fst (update_loop is j vary (a :: b :: u) (x :: y :: t))), snd (update_loop is j vary (a :: b :: u) (x :: y :: t))) /\
  fst (update_loop is j vary (a :: b :: u) (x :: y :: t)) = x :: y :: skipn 2 (fst (update_loop is j vary (a :: b :: u) (x :: y :: t))).
Proof.
  induction is as [|i is IH]; intros j vary a b a' b' u x y x' y' t Hi Hj; [split; reflexivity|]. cbn [update_loop].
  destruct (getn vary i) as [[]|e]; [|apply IH; [intros; apply Hi; now right|exact Hj]|split; reflexivity].
  assert (Hg : forall p q, getn (p :: q :: u) j = getn u (j - 2)). { intros p q. destruct j as [|[|j]]; try lia. cbn. now rewrite Nat.sub_0_r. }
  rewrite !Hg. destruct (getn u (j - 2)) as [v|e]; [|split; reflexivity].
  assert (Hm : forall p q, mapi (fun k z => if Nat.eqb k i then v else z) (p :: q :: t) = p :: q :: mapi_from 2 (fun k z => if Nat.eqb k i then v else z) t).
  { intros p q. assert (2 <= i)%nat by (apply Hi; now left). destruct i as [|[|i]]; try lia. reflexivity. }
  rewrite !Hm. apply IH; [intros; apply Hi; now right|lia].
Qed.
Lemma update_pair vs a b a' b' u x y x' y' t :
  update_parameters (x' :: y' :: t) (true :: true :: vs) (a' :: b' :: u) =
  (a' :: b' :: skipn 2 (fst (update_parameters (x :: y :: t) (true :: true :: vs) (a :: b :: u))), snd (update_parameters (x :: y :: t) (true :: true :: vs) (a :: b :: u))) /\
  fst (update_parameters (x :: y :: t) (true :: true :: vs) (a :: b :: u)) = a :: b :: skipn 2 (fst (update_parameters (x :: y :: t) (true :: true :: vs) (a :: b :: u))).
Proof.
  unfold update_parameters. cbn [length seq]. cbn [update_loop getn nth_error].
  assert (E : forall p q v w : fl, mapi (fun k z => if Nat.eqb k 1 then w else z) (mapi (fun k z => if Nat.eqb k 0 then v else z) (p :: q :: t)) = v :: w :: t).
  { intros p q v w. unfold mapi. rewrite mapi_mapi_from. cbn. f_equal. f_equal. apply mapi_from_id. intros i z Hi. destruct i as [|[|i]]; try lia. reflexivity. }
  rewrite !E. apply update_two; [|lia]. intros i Hi. apply in_seq in Hi. lia.
Qed.

Definition Tsign (th th' : list fl) : Prop := th' = flip2 th /\ disc_par th /\ (4 <= length th)%nat.
Lemma fatan_odd x : fatan (fneg x) = fneg (fatan x).
Proof. destruct x; cbn; try reflexivity; f_equal; [apply atan_opp|ring]. Qed.
Lemma fdiv_neg_r x b : b <> 0 -> fdiv x (Fin (- b)) = fneg (fdiv x (Fin b)).
Proof.
  intros N. destruct x as [a| | |]; cbn [fdiv].
  - rewrite (proj2 (Reqb_false b 0) N), (proj2 (Reqb_false (- b) 0)) by lra. cbn. f_equal. field. exact N.
  - destruct (Rltb b 0) eqn:E; [apply Rltb_true in E; rewrite (proj2 (Rltb_false (- b) 0)) by lra|apply Rltb_false in E; rewrite (proj2 (Rltb_true (- b) 0)) by lra]; reflexivity.
  - destruct (Rltb b 0) eqn:E; [apply Rltb_true in E; rewrite (proj2 (Rltb_false (- b) 0)) by lra|apply Rltb_false in E; rewrite (proj2 (Rltb_true (- b) 0)) by lra]; reflexivity.
  - reflexivity.
Qed.
Lemma getz_len4 (a b a' b' x y : fl) t :
  getz (a' :: b' :: x :: y :: t) (-1) = getz (a :: b :: x :: y :: t) (-1) /\ getz (a' :: b' :: x :: y :: t) (-2) = getz (a :: b :: x :: y :: t) (-2).
Proof.
  split; [apply (getz_tail (a :: b :: x :: y :: t) (a' :: b' :: x :: y :: t) 0)|apply (getz_tail (a :: b :: x :: y :: t) (a' :: b' :: x :: y :: t) 1)];
    try reflexivity; try lia; try (cbn; lia); intros [|[|i]] H; try lia; reflexivity.
Qed.
Lemma sign_pair c : p_nvel (c_prof c) = 2%nat -> p_vel (c_prof c) = MProf.vel_arctan ->
  (forall th st, disc_par th -> (4 <= length th)%nat -> same_image (aper_new c th st) (aper_new c (flip2 th) st)) /\
  (forall k vs tf0 tfs, disc_par (k_theta k) -> (4 <= length (k_theta k))%nat -> k_vary k = true :: true :: vs -> k_aper k = None ->
     Forall disc_par (tf0 :: tfs) ->
     let k' := mkkm (flip2 (k_theta k)) (k_vary k) (k_noscale k) None (k_model k) (k_stamp k) in
     let p := km_make c tf0 k in let p' := km_make c (flip2 tf0) k' in
     snd p = snd p' /\ k_model (fst p) = k_model (fst p') /\ likelihoods c (fst p) tfs = likelihoods c (fst p') (map flip2 tfs)).
Proof.
  intros Hn Hv. destruct (other_parameters c (fun _ => True) Tsign Logic.I) as [A B].
  - intros th th' (-> & (a & b & t & -> & Nb) & L). cbn [length] in L. destruct t as [|x [|y t]]; try (cbn in L; lia).
    cbn [flip2]. destruct (getz_len4 a (Fin b) (fneg a) (fneg (Fin b)) x y t) as [Z1 Z2]. rewrite Hn. auto.
  - intros th th' s r h y (-> & (a & b & t & -> & Nb) & L) _. rewrite Hn, Hv. f_equal. f_equal. cbn [flip2 firstn MProf.vel_arctan fneg].
    rewrite fdiv_neg_r by exact Nb. rewrite fatan_odd, fmul_neg_r, fmul_neg_r, fmul_neg_l, fneg_neg. reflexivity.
  - split; [intros th st D L; apply A; split; auto|].
    intros k vs tf0 tfs D L V KA F k' p p'.
    assert (ST : forall tf, disc_par tf -> steps Tsign k tf (flip2 tf)).
    { intros tf (a & b & u & -> & Nb). split; [reflexivity|]. intros th th' (-> & (x & y & t & -> & Ny) & LL). rewrite V. cbn [flip2].
      destruct (update_pair vs a (Fin b) (fneg a) (fneg (Fin b)) u x (Fin y) (fneg x) (fneg (Fin y)) t) as [U1 U2]. rewrite U1. cbn [fst snd]. split; [reflexivity|].
      split; [|split].
      - now rewrite U2.
      - rewrite U2. now exists a, b, (skipn 2 (fst (update_parameters (x :: Fin y :: t) (true :: true :: vs) (a :: Fin b :: u)))).
      - unfold update_parameters. rewrite update_loop_length. exact LL. }
    apply (B k k' tf0 (flip2 tf0) tfs (map flip2 tfs)).
    + repeat split; auto. rewrite KA. exact Logic.I.
    + apply ST. now inversion F.
    + inversion F as [|? ? _ F2]; subst. clear -F2 ST. induction F2; constructor; auto.
Qed.

(* face-on disc *)
Definition plain_par (th : list fl) : Prop := exists a b t, th = Fin a :: Fin b :: t /\ b <> 0.
Definition Tface (th th' : list fl) : Prop :=
  plain_par th /\ plain_par th' /\ skipn 2 th' = skipn 2 th /\ (4 <= length th)%nat.
Lemma face_cell a b a' b' r y : b <> 0 -> b' <> 0 ->
  fmul (fmul (fmul (fmul (Fin (2 / PI)) (Fin a')) (fatan (fdiv r (Fin b')))) y) (Fin 0) =
  fmul (fmul (fmul (fmul (Fin (2 / PI)) (Fin a)) (fatan (fdiv r (Fin b)))) y) (Fin 0).
Proof.
  intros N N'. assert (E : forall b, b <> 0 -> r <> NaN -> exists q, fatan (fdiv r (Fin b)) = Fin q).
  { intros e Ne Nr. destruct r as [x| | |]; try contradiction; [rewrite fdiv_Fin by exact Ne; cbn; eauto| |]; cbn; destruct (Rltb e 0); cbn; eauto. }
  assert (D : r = NaN \/ r <> NaN) by (destruct r; [right|right|right|left]; congruence). destruct D as [->|D]; [reflexivity|].
  destruct (E b N D) as [q ->], (E b' N' D) as [q' ->].
  change (fmul (fmul (Fin (2 / PI)) (Fin a')) (Fin q')) with (Fin (2 / PI * a' * q')). change (fmul (fmul (Fin (2 / PI)) (Fin a)) (Fin q)) with (Fin (2 / PI * a * q)).
  assert (Z : forall k y, fmul (fmul (Fin k) y) (Fin 0) = match y with Fin _ => Fin 0 | _ => NaN end).
  { intros k [w| | |]; cbn; try reflexivity; [f_equal; ring| |]; unfold inf_scale; destruct (Reqb k 0), (Rltb 0 k); cbn; unfold inf_scale;
      rewrite ?(proj2 (Reqb_true 0 0) eq_refl); reflexivity. }
  now rewrite !Z.
Qed.
Lemma sin_i_face q0 : 0 <= q0 < 1 -> sin_i (Fin 1) (Fin q0) = Fin 0.
Proof.
  intros H. unfold sin_i. cbn [fltb]. rewrite (proj2 (Rltb_false 1 q0)) by lra. unfold fsub, fsq. cbn [fmul fneg fadd].
  rewrite fdiv_Fin by nra. replace ((1 + - (1 * 1)) / (1 + - (q0 * q0))) with 0 by (field; nra). unfold fsqrt.
  rewrite (proj2 (Rltb_false 0 0)) by lra. now rewrite sqrt_0.
Qed.
Lemma face_on c q0 : p_nvel (c_prof c) = 2%nat -> p_vel (c_prof c) = MProf.vel_arctan ->
  g_q (c_gal c) = Fin 1 -> g_q0 (c_gal c) = Fin q0 -> 0 <= q0 < 1 ->
  forall a b a' b' t st, b <> 0 -> b' <> 0 -> (2 <= length t)%nat ->
  same_image (aper_new c (Fin a :: Fin b :: t) st) (aper_new c (Fin a' :: Fin b' :: t) st).
Proof.
  intros Hn Hv Hq Hq0 B0. destruct (other_parameters c (fun s => s = Fin 0) Tface) as [A _].
  - rewrite Hq, Hq0. now apply sin_i_face.
  - intros th th' ((a & b & t & -> & Nb) & (a' & b' & t' & -> & Nb') & E & L). cbn [skipn] in E. subst t'. cbn [length] in L.
    destruct t as [|x [|y t]]; try (cbn in L; lia). destruct (getz_len4 (Fin a) (Fin b) (Fin a') (Fin b') x y t) as [Z1 Z2]. rewrite Hn. auto.
  - intros th th' s r h y ((a & b & t & -> & Nb) & (a' & b' & t' & -> & Nb') & E & L) ->. rewrite Hn, Hv. cbn [firstn MProf.vel_arctan]. now apply face_cell.
  - intros a b a' b' t st N N' L. apply A. repeat split; [now exists a, b, t|now exists a', b', t|cbn; lia].
Qed.
