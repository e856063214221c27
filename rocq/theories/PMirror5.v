(* Proofs: turning the disc backwards mirrors the image; cases. *)
From Coq Require Import Reals Lra Lia List Bool Arith ZArith.
From Verif Require MProf PProf.
From Verif Require Import PyFloat PyBase Arr PyNum MParams MKernels MAper2D SAper1D SAper2D SLos SMirror PKernels PAper2D PLos PMirror PMirror2 PMirror3 PMirror4.
Import ListNotations.
Local Open Scope R_scope.

Definition vopp (p : vec) : vec := (- fst (fst p), - snd (fst p), - snd p).
Lemma height_opp n p : height n (vopp p) = - height n p.
Proof. unfold height, vdot, vopp. cbn. ring. Qed.
Lemma from_axis_opp n p : from_axis n (vopp p) = from_axis n p.
Proof.
  unfold from_axis, vnorm. rewrite height_opp. f_equal. unfold vdot, vsub, vscal, vopp. cbn. ring.
Qed.
Lemma along_opp n v p : along_sight n (- v) (vopp p) = along_sight n v p.
Proof.
  unfold along_sight. rewrite from_axis_opp. destruct (Req_EM_T (from_axis n p) 0); [reflexivity|].
  unfold vcross, vopp. cbn. field. assumption.
Qed.
Lemma tot_rev : forall n f, tot n f = tot n (fun i => f (n - 1 - i)%nat).
Proof.
  assert (S1 : forall n f, tot (S n) f = f 0%nat + tot n (fun i => f (S i))).
  { induction n as [|n IH]; intros f; [cbn; ring|]. change (tot (S (S n)) f) with (tot (S n) f + f (S n)). rewrite IH. cbn [tot]. ring. }
  assert (TE : forall n f g, (forall i, (i < n)%nat -> f i = g i) -> tot n f = tot n g).
  { induction n as [|n IH]; intros f g H; [reflexivity|]. cbn [tot]. rewrite (IH f g) by (intros; apply H; lia). now rewrite H by lia. }
  induction n as [|n IH]; intros f; [reflexivity|]. rewrite (S1 n (fun i => f (S n - 1 - i)%nat)). cbn [tot]. rewrite IH.
  replace (S n - 1 - 0)%nat with n by lia. rewrite Rplus_comm. f_equal. apply TE. intros i Hi. f_equal. lia.
Qed.
Lemma tot_ext : forall n f g, (forall i, (i < n)%nat -> f i = g i) -> tot n f = tot n g.
Proof. induction n as [|n IH]; intros f g H; [reflexivity|]. cbn [tot]. rewrite (IH f g) by (intros; apply H; lia). now rewrite H by lia. Qed.
Lemma inclined_unique q q0 i i' : 0 <= q0 < 1 -> inclined q q0 i -> inclined q q0 i' -> i = i'.
Proof.
  intros B (A1 & A2 & A3) (B1 & B2 & B3). pose proof PI_RGT_0.
  assert (E : sin i = sin i').
  { destruct (Rle_dec q q0) as [L|L]; [now rewrite A2, B2|]. specialize (A3 ltac:(lra)). specialize (B3 ltac:(lra)).
    assert (0 <= sin i) by (apply sin_ge_0; lra). assert (0 <= sin i') by (apply sin_ge_0; lra).
    assert (Q : 0 < 1 - q0 ^ 2) by nra.
    assert ((sin i) ^ 2 = (sin i') ^ 2) by (apply (Rmult_eq_reg_r (1 - q0 ^ 2)); lra). nra. }
  apply sin_inj; lra.
Qed.
Lemma cell_rev n d k : (k < n)%nat -> cell_centre n d (n - 1 - k) = - cell_centre n d k.
Proof. intros H. unfold cell_centre. rewrite (minus_INR (n - 1) k), (minus_INR n 1) by lia. cbn [INR]. field. Qed.

Lemma backwards c l d q q0 m0 z va rt sg dm (rest ratio : list R) (hr : R -> R -> R) st :
  let th v := [Fin v; Fin rt; Fin sg; Fin dm; Fin z] in
  well_posed c (th va) l -> unblurred c ->
  p_nvel (c_prof c) = 2%nat -> p_vel (c_prof c) = MProf.vel_arctan -> p_disp (c_prof c) = MProf.disp_const ->
  g_dPA (c_gal c) = Fin d -> g_q (c_gal c) = Fin q -> g_q0 (c_gal c) = Fin q0 -> 0 <= q0 < 1 -> 0 <= q <= 1 ->
  g_m0 (c_gal c) = Fin m0 -> 1 + z <> 0 -> rt <> 0 -> sg <> 0 ->
  g_rest (c_gal c) = map Fin rest -> g_ratio (c_gal c) = map Fin ratio -> (forall x, In x rest -> x <> 0) ->
  (forall r h, p_int (c_prof c) (Fin r) (Fin h) = Fin (hr r h)) -> (forall r h, hr r (- h) = hr r h) ->
  o_xc (c_opt c) = 0 -> m0 + dm = (INR (g_rows (c_gal c)) - 1) / 2 -> (2 <= g_rows (c_gal c) * o_nsub (c_opt c))%nat ->
  exists b b' m m', snd (aper_new c (th va) st) = Ok b /\ a_model b = Some m /\
    snd (aper_new c (th (- va)) st) = Ok b' /\ a_model b' = Some m' /\
    rows m = g_rows (c_gal c) /\ rows m' = g_rows (c_gal c) /\ cols m = length l /\ cols m' = length l /\
    forall i t, (i < g_rows (c_gal c))%nat -> (t < length l)%nat -> at2 m' i t = at2 m (g_rows (c_gal c) - 1 - i)%nat t.
Proof.
  intros th Hwp Hu N2 Hv Hs Hd Hq Hq0 B0 B1 Hm Nz Nr Ns Hre Hra Nre Hi He Hx Hc Hy.
  assert (W : forall v, well_posed c (th v) l) by (intros v; exact Hwp).
  assert (RUN : forall v, exists a0 b m inc n nx dx,
    nx = slit_npix (c_ins c) (c_opt c) (g_rows (c_gal c)) /\ dx = i_slit (c_ins c) / INR nx /\ n = axis d inc /\
    setup_calcs c (th v) = Ok a0 /\ do_model_calcs c a0 = (b, Ok tt) /\ a_model b = Some m /\
    rows m = g_rows (c_gal c) /\ cols m = length l /\ inclined q q0 inc /\ turning_axis d inc n /\
    INR nx * dx = i_slit (c_ins c) /\ 0 < dx <= i_pix (c_ins c) / INR (o_nsub (c_opt c)) /\ ((nx > 1)%nat -> i_pix (c_ins c) / INR (o_nsub (c_opt c)) < 2 * dx) /\
    forall i t, (i < g_rows (c_gal c))%nat -> (t < length l)%nat ->
      at2 m i t = Fin (dx * (i_pix (c_ins c) / INR (o_nsub (c_opt c))) * tot (o_nsub (c_opt c)) (fun s => tot nx (fun k => tot (g_rows (c_gal c) * o_nsub (c_opt c)) (fun o =>
        let j := (i * o_nsub (c_opt c) + s)%nat in
        let p := (cell_centre nx dx k - o_xc (c_opt c),
                  subpixel_y (o_nsub (c_opt c)) 0 (i_pix (c_ins c) / INR (o_nsub (c_opt c))) (m0 + dm) j +
                    INR (o_nsub (c_opt c)) * (i_pix (c_ins c) / INR (o_nsub (c_opt c))) * (1/2 - (if Nat.eqb (g_rows (c_gal c) * o_nsub (c_opt c)) 1 then 0 else INR j / (INR (g_rows (c_gal c) * o_nsub (c_opt c)) - 1))),
                  cell_centre (g_rows (c_gal c) * o_nsub (c_opt c)) (i_pix (c_ins c) / INR (o_nsub (c_opt c))) o) in
        hr (from_axis n p) (height n p) * spectrum rest ratio z (along_sight n (2 / PI * v * atan (from_axis n p / rt)) p) sg (nth t l 0)))))).
  { intros v. apply (plain_emission_nx c (th v) l d q q0 (m0 + dm) z rest ratio (fun r _ => 2 / PI * v * atan (r / rt)) hr (fun _ _ => sg)); auto.
    - rewrite Hm. reflexivity.
    - intros r h. rewrite N2, Hv. now apply PProf.vel_Fin.
    - intros r h. rewrite N2, Hs. split; [|exact Ns]. cbn. f_equal. ring. }
  destruct (RUN va) as (a0 & b & m & inc & n & nx & dx & E1 & E2 & E3 & E4 & E5 & E6 & E7 & E8 & E9 & _ & _ & _ & _ & EM).
  destruct (RUN (- va)) as (a0' & b' & m' & inc' & n' & nx' & dx' & F1 & F2 & F3 & F4 & F5 & F6 & F7 & F8 & F9 & _ & _ & _ & _ & FM). clear RUN.
  assert (inc' = inc) by (apply (inclined_unique q q0); auto). subst inc'.
  assert (Q1 : nx' = nx) by congruence. assert (Q2 : dx' = dx) by congruence. assert (Q3 : n' = n) by congruence. rewrite Q1, Q2, Q3 in FM. clear Q1 Q2 Q3.
  exists b, b', m, m'. unfold aper_new. rewrite E4, E5, F4, F5. cbn [snd]. repeat (split; [first [reflexivity|assumption]|]).
  intros i t Li Lt. assert (Li2 : (g_rows (c_gal c) - 1 - i < g_rows (c_gal c))%nat) by lia. rewrite (FM i t Li Lt), (EM _ t Li2 Lt). f_equal. f_equal.
  clear EM FM. set (ns := o_nsub (c_opt c)) in *. set (nr := g_rows (c_gal c)) in *. set (ny := (nr * ns)%nat) in *. set (dy := i_pix (c_ins c) / INR ns) in *.
  symmetry. rewrite (tot_rev ns). apply tot_ext. intros s Ls. rewrite (tot_rev nx). apply tot_ext. intros k Lk. rewrite (tot_rev ny). apply tot_ext. intros o Lo.
  cbv zeta. set (p := (cell_centre nx dx k - o_xc (c_opt c), _, _)).
  match goal with |- hr (from_axis n ?P) _ * _ = _ => assert (EP : P = vopp p) end.
  { unfold p, vopp. cbn [fst snd]. rewrite Hx, !cell_rev by assumption.
    apply pair_equal_spec. split; [|reflexivity]. apply pair_equal_spec. split; [ring|].
    assert (J : ((nr - 1 - i) * ns + (ns - 1 - s) = ny - 1 - (i * ns + s))%nat) by (unfold ny; nia).
    assert (J2 : (i * ns + s <= ny - 1)%nat) by (unfold ny; nia).
    rewrite J. destruct (Nat.eqb_spec ny 1); [lia|]. unfold subpixel_y. rewrite Hc.
    rewrite (minus_INR (ny - 1)), (minus_INR ny 1) by lia. cbn [INR].
    assert (NY : INR ny - 1 <> 0). { assert (1 < INR ny) by (apply lt_1_INR; lia). lra. }
    assert (EN : INR ny = INR nr * INR ns) by (unfold ny; apply mult_INR). rewrite EN in *. field. exact NY. }
  rewrite EP, from_axis_opp, height_opp, He. f_equal. f_equal.
  rewrite <- (along_opp n (2 / PI * - va * atan (from_axis n p / rt)) p). f_equal. ring.
Qed.

(* seen from the other side of the slit *)
Lemma turned c l d q q0 m0 z va rt sg dm (rest ratio : list R) (hr : R -> R -> R) st :
  let th := [Fin va; Fin rt; Fin sg; Fin dm; Fin z] in
  well_posed c th l -> unblurred c ->
  p_nvel (c_prof c) = 2%nat -> p_vel (c_prof c) = MProf.vel_arctan -> p_disp (c_prof c) = MProf.disp_const ->
  g_dPA (c_gal c) = Fin d -> g_q (c_gal c) = Fin q -> g_q0 (c_gal c) = Fin q0 -> 0 <= q0 < 1 -> 0 <= q <= 1 ->
  g_m0 (c_gal c) = Fin m0 -> 1 + z <> 0 -> rt <> 0 -> sg <> 0 ->
  g_rest (c_gal c) = map Fin rest -> g_ratio (c_gal c) = map Fin ratio -> (forall x, In x rest -> x <> 0) ->
  (forall r h, p_int (c_prof c) (Fin r) (Fin h) = Fin (hr r h)) -> (forall r h, p_int (c_prof c) r (fneg h) = p_int (c_prof c) r h) ->
  o_xc (c_opt c) = 0 -> m0 + dm = (INR (g_rows (c_gal c)) - 1) / 2 -> (2 <= g_rows (c_gal c) * o_nsub (c_opt c))%nat ->
  exists b b' m m', snd (aper_new c th st) = Ok b /\ a_model b = Some m /\
    snd (aper_new (at_angle (Fin (d + 180)) c) th st) = Ok b' /\ a_model b' = Some m' /\
    rows m = g_rows (c_gal c) /\ rows m' = g_rows (c_gal c) /\ cols m = length l /\ cols m' = length l /\
    forall i t, (i < g_rows (c_gal c))%nat -> (t < length l)%nat -> at2 m' i t = at2 m (g_rows (c_gal c) - 1 - i)%nat t.
Proof.
  intros th Hwp Hu N2 Hv Hs Hd Hq Hq0 B0 B1 Hm Nz Nr Ns Hre Hra Nre Hi He Hx Hc Hy.
  assert (He' : forall r h, hr r (- h) = hr r h).
  { intros r h. specialize (He (Fin r) (Fin h)). cbn [fneg] in He. rewrite !Hi in He. now injection He. }
  destruct (backwards c l d q q0 m0 z va rt sg dm rest ratio hr st Hwp Hu N2 Hv Hs Hd Hq Hq0 B0 B1 Hm Nz Nr Ns Hre Hra Nre Hi He' Hx Hc Hy)
    as (b & b' & m & m' & E1 & E2 & E3 & E4 & E5 & E6 & E7 & E8 & EE).
  destruct (half_turn c d [Fin (- va); Fin rt; Fin sg; Fin dm; Fin z] st Hd N2 Hv) as [_ S].
  - rewrite Hs. intros p r h. destruct p as [|s p]; reflexivity.
  - exact He.
  - cbn; lia.
  - rewrite E3 in S. cbn [flip1 fneg] in S. rewrite Ropp_involutive in S.
    destruct (snd (aper_new (at_angle _ c) _ st)) as [b2|e] eqn:F; [|contradiction].
    exists b, b2, m, m'. repeat (split; [first [assumption|reflexivity]|]). split; [congruence|]. auto.
Qed.

(* cases *)
Lemma y_centre : let th := [Fin 200; Fin (1/2); Fin 50; Fin 0; Fin 1] in
  exists b b' m m', snd (aper_new y_cfg th (Stamp3 (mk3 0 0 0 (fun _ _ _ => NaN)))) = Ok b /\ a_model b = Some m /\
    snd (aper_new (at_angle (Fin (30 + 180)) y_cfg) th (Stamp3 (mk3 0 0 0 (fun _ _ _ => NaN)))) = Ok b' /\ a_model b' = Some m' /\
    rows m = 3%nat /\ at2 m' 0 1 = at2 m 2 1 /\ at2 m' 2 0 = at2 m 0 0.
Proof.
  intros th. destruct y_example as (W & U & _).
  destruct (turned y_cfg [13126; 13134] 30 (3/5) 0 1 1 200 (1/2) 50 0 [6565] [1] (fun r _ => exp (- r)) (Stamp3 (mk3 0 0 0 (fun _ _ _ => NaN))) W U)
    as (b & b' & m & m' & E1 & E2 & E3 & E4 & E5 & E6 & E7 & E8 & EE); try reflexivity; try lra; try (cbn; lia).
  - intros x [<-|[]]. lra.
  - cbn. lra.
  - exists b, b', m, m'. repeat (split; [assumption|]). split; [apply (EE 0%nat 1%nat)|apply (EE 2%nat 0%nat)]; cbn; lia.
Qed.
Lemma y_turn : forall st, same_image (aper_new y_cfg [Fin 200; Fin (1/2); Fin 50; Fin 0; Fin 1] st)
  (aper_new (at_angle (Fin (30 + 180)) y_cfg) [Fin (-200); Fin (1/2); Fin 50; Fin 0; Fin 1] st).
Proof.
  intros st. replace (-200) with (- (200)) by reflexivity.
  apply (half_turn y_cfg 30 [Fin 200; Fin (1/2); Fin 50; Fin 0; Fin 1] st); try reflexivity; [|cbn; lia]. intros [|s p] r h; reflexivity.
Qed.
Lemma y_sign : forall st, same_image (aper_new y_cfg [Fin 200; Fin (1/2); Fin 50; Fin 0; Fin 1] st)
  (aper_new y_cfg [Fin (- (200)); Fin (- (1/2)); Fin 50; Fin 0; Fin 1] st).
Proof.
  intros st. apply (proj1 (sign_pair y_cfg eq_refl eq_refl) [Fin 200; Fin (1/2); Fin 50; Fin 0; Fin 1] st); [|cbn; lia].
  exists (Fin 200), (1/2), [Fin 50; Fin 0; Fin 1]. split; [reflexivity|lra].
Qed.
Definition y_stamp : stamp := Stamp3 (mk3 0 0 0 (fun _ _ _ => NaN)).
Definition y_kin (th : list fl) : kinmodel := mkkm th [true; true; true; false; false] true None None y_stamp.
Lemma y_fit : let th := [Fin 200; Fin (1/2); Fin 50; Fin 0; Fin 1] in
  let c' := at_angle (Fin (30 + 180)) y_cfg in
  let p := km_make y_cfg (firstn 3 th) (y_kin th) in let p' := km_make c' (flip1 (firstn 3 th)) (y_kin (flip1 th)) in
  snd p = Ok tt /\ snd p' = Ok tt /\
  likelihoods y_cfg (fst p) [[Fin 150; Fin (1/4); Fin 40]; [Fin 90]] = likelihoods c' (fst p') [[Fin (- (150)); Fin (1/4); Fin 40]; [Fin (- (90))]].
Proof.
  intros th c' p p'.
  destruct (half_turn_fit y_cfg 30 (y_kin th) [true; true; false; false] (firstn 3 th) [[Fin 150; Fin (1/4); Fin 40]; [Fin 90]]) as (A & _ & B); try reflexivity; try (cbn; lia).
  - intros [|s q] r h; reflexivity.
  - fold c' in A, B. assert (E : snd p = Ok tt); [|split; [exact E|split; [|exact B]]; rewrite <- E; symmetry; exact A].
    destruct y_example as (_ & _ & a0 & b & m & inc & n & E1 & E2 & E3 & _). fold th in E1.
    unfold p, km_make. replace (negb _) with false by reflexivity.
    replace (update_parameters (k_theta (y_kin th)) (k_vary (y_kin th)) (firstn 3 th)) with (th, @Ok unit tt) by reflexivity.
    cbn [y_kin k_aper k_stamp k_noscale k_vary k_model]. unfold aper_new. rewrite E1, E2. unfold store_model. rewrite E3. reflexivity.
Qed.
Lemma y_face : forall st (va va' : R), same_image
  (aper_new (mkcfg (mkgal (Fin 1) (Fin 0) (Fin 30) 3 (map Fin [13126; 13134]) (Fin 1) [Fin 6565] [Fin 1] y_data) y_ins y_opt y_prof) [Fin va; Fin (1/2); Fin 50; Fin 0; Fin 1] st)
  (aper_new (mkcfg (mkgal (Fin 1) (Fin 0) (Fin 30) 3 (map Fin [13126; 13134]) (Fin 1) [Fin 6565] [Fin 1] y_data) y_ins y_opt y_prof) [Fin va'; Fin 3; Fin 50; Fin 0; Fin 1] st).
Proof.
  intros st va va'. set (c := mkcfg _ _ _ _).
  apply (face_on c 0 eq_refl eq_refl eq_refl eq_refl); try lra. cbn; lia.
Qed.
(* the two halves of the sign theorem *)
Lemma sign_image c : p_nvel (c_prof c) = 2%nat -> p_vel (c_prof c) = MProf.vel_arctan ->
  forall th st, disc_par th -> (4 <= length th)%nat -> same_image (aper_new c th st) (aper_new c (flip2 th) st).
Proof. intros Hn Hv. exact (proj1 (sign_pair c Hn Hv)). Qed.
Lemma sign_fit c : p_nvel (c_prof c) = 2%nat -> p_vel (c_prof c) = MProf.vel_arctan ->
  forall k vs tf0 tfs, disc_par (k_theta k) -> (4 <= length (k_theta k))%nat -> k_vary k = true :: true :: vs -> k_aper k = None ->
  Forall disc_par (tf0 :: tfs) ->
  let k' := mkkm (flip2 (k_theta k)) (k_vary k) (k_noscale k) None (k_model k) (k_stamp k) in
  let p := km_make c tf0 k in let p' := km_make c (flip2 tf0) k' in
  snd p = snd p' /\ k_model (fst p) = k_model (fst p') /\ likelihoods c (fst p) tfs = likelihoods c (fst p') (map flip2 tfs).
Proof. intros Hn Hv. exact (proj2 (sign_pair c Hn Hv)). Qed.
