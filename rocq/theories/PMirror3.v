(* Proofs: half turn of the galaxy, sign of the two velocity parameters, face-on discs. *)
From Coq Require Import Reals Lra Lia List Bool Arith ZArith Permutation FunctionalExtensionality.
From Verif Require MProf.
From Verif Require Import PyFloat PyBase Arr PyNum MParams MKernels MAper2D SMirror PKernels PAper1D PAper2D PMirror PMirror2.
Import ListNotations.
Local Open Scope R_scope.

(* one point *)
Lemma turn_pt x y z d i :
  transform_int_3d x y z (Fin (d + 180)) i =
  (fneg (fst (fst (transform_int_3d x y (fneg z) (Fin d) i))), fneg (snd (fst (transform_int_3d x y (fneg z) (Fin d) i))),
   fneg (snd (transform_int_3d x y (fneg z) (Fin d) i))).
Proof.
  unfold transform_int_3d. cbv zeta. cbn [fst snd].
  assert (C : fcos (fmul (Fin (d + 180)) (Fin (PI / 180))) = fneg (fcos (fmul (Fin d) (Fin (PI / 180))))).
  { cbn. f_equal. replace ((d + 180) * (PI / 180)) with (d * (PI / 180) + PI) by field. apply neg_cos. }
  assert (S : fsin (fmul (Fin (d + 180)) (Fin (PI / 180))) = fneg (fsin (fmul (Fin d) (Fin (PI / 180))))).
  { cbn. f_equal. replace ((d + 180) * (PI / 180)) with (d * (PI / 180) + PI) by field. apply neg_sin. }
  rewrite C, S. generalize (fcos (fmul (Fin d) (Fin (PI / 180)))), (fsin (fmul (Fin d) (Fin (PI / 180)))). intros u v.
  rewrite !fmul_neg_r, !fmul_neg_l, !fadd_neg, !fmul_neg_r, <- !fadd_neg, !fneg_neg. reflexivity.
Qed.
Lemma z_flip n d m : (m < n)%nat ->
  let z := linspace (Fin (- ((INR n / 2 - 1/2) * d))) (Fin ((INR n / 2 - 1/2) * d)) n in
  lnth z (n - 1 - m) = fneg (lnth z m).
Proof.
  intros H z. unfold z, linspace. rewrite !lnth_map_seq by lia. unfold linspace_at.
  destruct (Nat.leb_spec n 1) as [L|L].
  - assert (n = 1%nat) by lia. subst n. cbn [fneg]. f_equal. cbn. lra.
  - assert (N : INR n - 1 <> 0). { assert (1 < INR n) by (apply lt_1_INR; lia). lra. }
    rewrite (minus_INR (n - 1) m), (minus_INR n 1) by lia. cbn [INR]. unfold fsub. cbn [fneg fadd].
    rewrite fdiv_Fin by exact N. cbn [fmul fadd fneg]. f_equal. field. exact N.
Qed.

Definition revz (n m : nat) : nat := (n - 1 - m)%nat.
Definition Gturn (P : profs) (n : nat) (g g' : grid) : Prop :=
  nZ g = n /\ exists r y z I, g' = regrid g r y z I /\
  dim0 I = dim0 (I_wide g) /\ dim1 I = dim1 (I_wide g) /\ dim2 I = dim2 (I_wide g) /\
  forall m j k, (m < n)%nat ->
    at3 r m j k = at3 (r_cube g) (revz n m) j k /\ at3 y m j k = fneg (at3 (yint g) (revz n m) j k) /\
    at3 z m j k = fneg (at3 (zint g) (revz n m) j k) /\ at3 I m j k = at3 (I_wide g) (revz n m) j k.
Lemma Gturn_grel P n g g' : two_sided (p_disp P) -> Gturn P n g g' -> grel P n (revz n) g g'.
Proof.
  intros E (N & r & y & z & I & -> & D0 & D1 & D2 & H). split; [exact N|]. exists r, y, z, I. repeat (split; [first [reflexivity|assumption]|]).
  intros m j k Hm. destruct (H m j k Hm) as (H1 & _ & H3 & H4). split; [|exact H4]. intros d. rewrite H1, H3. apply E.
Qed.
Lemma Gturn_vrel P n g g' v v' : (forall r h, p_vel P v' r (fneg h) = fneg (p_vel P v r h)) -> Gturn P n g g' -> vrel P n (revz n) g g' v v'.
Proof.
  intros E (N & r & y & z & I & -> & _ & _ & _ & H) m j k Hm. destruct (H m j k Hm) as (H1 & H2 & H3 & _). unfold vcell.
  cbn [regrid r_cube zint yint sini]. rewrite H1, H2, H3, E.
  destruct (feqb (at3 (r_cube g) (revz n m) j k) (Fin 0)).
  - f_equal. replace (Fin 0) with (fneg (Fin 0)) by (cbn; f_equal; ring).
    rewrite fmul_neg_r, fmul_neg_l, fneg_neg. rewrite fmul_neg_r. destruct (p_vel P v _ _); cbn; try reflexivity; try (unfold inf_scale; replace (Reqb 0 0) with true by (symmetry; now apply Reqb_true); reflexivity); f_equal; ring.
  - rewrite fdiv_neg_l, fmul_neg_l, fmul_neg_r, fneg_neg. reflexivity.
Qed.

Lemma setup_turn c d th th' : g_dPA (c_gal c) = Fin d -> (forall r h, p_int (c_prof c) r (fneg h) = p_int (c_prof c) r h) ->
  getz th' (-1) = getz th (-1) -> getz th' (-2) = getz th (-2) ->
  let n := (g_rows (c_gal c) * o_nsub (c_opt c))%nat in
  match setup_model_grid c th, setup_model_grid (at_angle (Fin (d + 180)) c) th' with
  | Ok (g, w), Ok (g', w') => Gturn (c_prof c) n g g' /\ wrel n (revz n) w w'
  | Err e, Err e' => e = e'
  | _, _ => False
  end.
Proof.
  intros Hd Hi Z1 Z2 n. unfold setup_model_grid. cbn [at_angle c_gal c_ins c_opt c_prof g_q g_q0 g_dPA g_rows g_wave g_m0 g_rest].
  rewrite Z1, Z2, Hd. destruct (Nat.eqb _ 0); [reflexivity|]. destruct (Nat.eqb (slit_npix _ _ _) 0); [reflexivity|].
  destruct (getz th (-1)) as [zz|]; [|reflexivity]. destruct (getz th (-2)) as [sh|]; [|reflexivity]. cbn [bind].
  destruct (match o_spec (c_opt c) with Wave => _ | _ => _ end) as [lam|]; [|reflexivity]. cbn [bind].
  fold n. set (xs := map _ (linspace _ _ _)). set (ys := map _ (linspace _ _ _)). set (zs := linspace _ _ n). set (si := fasin _).
  assert (PT : forall m j k, (m < n)%nat ->
    transform_int_3d (lnth xs k) (lnth ys j) (lnth zs m) (Fin (d + 180)) si =
    (fneg (fst (fst (transform_int_3d (lnth xs k) (lnth ys j) (lnth zs (revz n m)) (Fin d) si))),
     fneg (snd (fst (transform_int_3d (lnth xs k) (lnth ys j) (lnth zs (revz n m)) (Fin d) si))),
     fneg (snd (transform_int_3d (lnth xs k) (lnth ys j) (lnth zs (revz n m)) (Fin d) si)))).
  { intros m j k Hm. rewrite turn_pt. unfold revz, zs. rewrite (z_flip n _ m Hm). reflexivity. }
  assert (II : forall m j k, (m < n)%nat ->
    p_int (c_prof c) (fsqrt (fadd (fsq (fst (fst (transform_int_3d (lnth xs k) (lnth ys j) (lnth zs m) (Fin (d + 180)) si))))
                                  (fsq (snd (fst (transform_int_3d (lnth xs k) (lnth ys j) (lnth zs m) (Fin (d + 180)) si))))))
       (snd (transform_int_3d (lnth xs k) (lnth ys j) (lnth zs m) (Fin (d + 180)) si)) =
    p_int (c_prof c) (fsqrt (fadd (fsq (fst (fst (transform_int_3d (lnth xs k) (lnth ys j) (lnth zs (revz n m)) (Fin d) si))))
                                  (fsq (snd (fst (transform_int_3d (lnth xs k) (lnth ys j) (lnth zs (revz n m)) (Fin d) si))))))
       (snd (transform_int_3d (lnth xs k) (lnth ys j) (lnth zs (revz n m)) (Fin d) si))).
  { intros m j k Hm. rewrite (PT m j k Hm). cbn [fst snd]. now rewrite !fsq_neg, Hi. }
  split.
  - split; [reflexivity|]. eexists _, _, _, _. split; [reflexivity|]. cbn [I_wide dim0 dim1 dim2]. repeat (split; [reflexivity|]).
    intros m j k Hm. cbn [at3 r_cube yint zint I_wide]. split; [|split; [|split]].
    + rewrite (PT m j k Hm). cbn [fst snd]. now rewrite !fsq_neg.
    + now rewrite (PT m j k Hm).
    + now rewrite (PT m j k Hm).
    + exact (II m j k Hm).
  - eexists. split; [reflexivity|]. cbn [w_I4 w_ref tile_I d0 d1 d2 d3 at4 repeat_wave dim0 dim1 dim2 at3]. repeat (split; [reflexivity|]). split; [|reflexivity].
    intros t m j k Hm. exact (II m j k Hm).
Qed.

Lemma cfg_eta c : c = mkcfg (c_gal c) (c_ins c) (c_opt c) (c_prof c).
Proof. now destruct c. Qed.
Lemma rev_reorders n : reorders n (revz n).
Proof. exact (flip_perm n). Qed.

(* from the grid to the object *)
Lemma setup_pre c c' n ren (Gam : grid -> grid -> Prop) th th' :
  c_opt c' = c_opt c -> c_ins c' = c_ins c ->
  (forall g g', Gam g g' -> grel (c_prof c) n ren g g') ->
  match setup_model_grid c th, setup_model_grid c' th' with
  | Ok (g, w), Ok (g', w') => Gam g g' /\ wrel n ren w w'
  | Err e, Err e' => e = e'
  | _, _ => False
  end ->
  match setup_calcs c th, setup_calcs c' th' with
  | Ok a, Ok a' => Pre n ren Gam a a' /\ a_theta a = th /\ a_theta a' = th'
  | Err e, Err e' => e = e'
  | _, _ => False
  end.
Proof.
  intros Ho Hi HG H. unfold setup_calcs. rewrite Ho, Hi.
  destruct (setup_model_grid c th) as [[g w]|e], (setup_model_grid c' th') as [[g' w']|e']; try contradiction; [|exact H].
  destruct H as [H1 H2]. cbn [bind]. split; [|split; reflexivity].
  pose proof (HG _ _ H1) as (_ & r & y & z & I & E & _). pose proof H2 as (I4 & E4 & _).
  eexists _, _, _, _. split; [|split; [|exact H2]].
  - cbn [a_disp a_dvel a_idw a_cube a_conv a_out a_model a_stamp].
    replace (make_stamp (c_ins c) g') with (make_stamp (c_ins c) g) by (rewrite E; reflexivity). reflexivity.
  - cbn [a_su]. eexists _, _. split; [|split; [exact H1|]].
    + cbn [s_floor s_up]. rewrite E4, E. cbn [w_d regrid lam0_primary]. rewrite <- E4, <- E. reflexivity.
    + cbn [s_real]. destruct (o_adapt (c_opt c)); [exact H2|exact Logic.I].
Qed.

Lemma getz_tail (l l' : list fl) k : length l' = length l -> (k <= 1)%nat ->
  (forall i, (2 <= i)%nat -> nth_error l' i = nth_error l i) -> (4 <= length l)%nat ->
  getz l' (- Z.of_nat (S k)) = getz l (- Z.of_nat (S k)).
Proof.
  intros L K H N. unfold getz. rewrite L. destruct (Z.ltb_spec (- Z.of_nat (S k)) 0); [|lia].
  destruct (Z.leb_spec 0 (- Z.of_nat (S k) + Z.of_nat (length l))); [|reflexivity].
  unfold getn. rewrite H by lia. reflexivity.
Qed.

Definition arctan_disc (c : cfg) : Prop :=
  p_nvel (c_prof c) = 2%nat /\ p_vel (c_prof c) = MProf.vel_arctan.
(* half turn *)
Definition Tturn (th th' : list fl) : Prop := th' = flip1 th /\ (3 <= length th)%nat.
Lemma Tturn_getz th th' : Tturn th th' -> getz th' (-1) = getz th (-1) /\ getz th' (-2) = getz th (-2).
Proof.
  intros [-> L]. destruct th as [|a [|b [|x t]]]; cbn in L; try lia. cbn [flip1].
  unfold getz. cbn [length]. rewrite !Nat2Z.inj_succ. 
  split; (match goal with |- context [(?k <? 0)%Z] => destruct (Z.ltb_spec k 0); [|lia] end).
  - replace (-1 + Z.succ (Z.succ (Z.succ (Z.of_nat (length t)))))%Z with (Z.of_nat (S (S (length t)))) by lia.
    rewrite Nat2Z.id. reflexivity.
  - replace (-2 + Z.succ (Z.succ (Z.succ (Z.of_nat (length t)))))%Z with (Z.of_nat (S (length t))) by lia.
    rewrite Nat2Z.id. reflexivity.
Qed.
Lemma Tturn_vel P th th' : p_nvel P = 2%nat -> p_vel P = MProf.vel_arctan -> Tturn th th' ->
  forall r h, p_vel P (firstn (p_nvel P) th') r (fneg h) = fneg (p_vel P (firstn (p_nvel P) th) r h).
Proof.
  intros N V [-> L] r h. rewrite N, V. destruct th as [|a [|b t]]; cbn in L; try lia. cbn [flip1 firstn MProf.vel_arctan].
  now rewrite fmul_neg_r, fmul_neg_l.
Qed.
Lemma Tturn_disp P th th' : p_nvel P = 2%nat -> Tturn th th' ->
  firstn (p_ndisp P) (skipn (p_nvel P) th') = firstn (p_ndisp P) (skipn (p_nvel P) th).
Proof. intros N [-> L]. rewrite N. destruct th as [|a [|b t]]; reflexivity. Qed.

Section Turn.
Variables (c : cfg) (d : R).
Hypothesis Hd : g_dPA (c_gal c) = Fin d.
Hypothesis Hn : p_nvel (c_prof c) = 2%nat.
Hypothesis Hv : p_vel (c_prof c) = MProf.vel_arctan.
Hypothesis Hs : two_sided (p_disp (c_prof c)).
Hypothesis Hi : forall r h, p_int (c_prof c) r (fneg h) = p_int (c_prof c) r h.
Let c' := at_angle (Fin (d + 180)) c.
Let n := (g_rows (c_gal c) * o_nsub (c_opt c))%nat.
Let Gam := Gturn (c_prof c) n.
Lemma turn_HG g g' : Gam g g' -> grel (c_prof c) n (revz n) g g'.
Proof. apply Gturn_grel, Hs. Qed.
Lemma turn_HV g g' th th' : Gam g g' -> Tturn th th' -> vrel (c_prof c) n (revz n) g g' (firstn (p_nvel (c_prof c)) th) (firstn (p_nvel (c_prof c)) th').
Proof. intros H T. apply Gturn_vrel; [now apply Tturn_vel|exact H]. Qed.
Lemma turn_HS th th' : Tturn th th' ->
  match setup_calcs c th, setup_calcs c' th' with
  | Ok a, Ok a' => Pre n (revz n) Gam a a' /\ a_theta a = th /\ a_theta a' = th'
  | Err e, Err e' => e = e'
  | _, _ => False
  end.
Proof.
  intros T. apply setup_pre; [reflexivity|reflexivity|exact turn_HG|]. destruct (Tturn_getz th th' T) as [Z1 Z2].
  exact (setup_turn c d th th' Hd Hi Z1 Z2).
Qed.
Lemma turn_new th th' st : Tturn th th' ->
  fst (aper_new c th st) = fst (aper_new c' th' st) /\
  match snd (aper_new c th st), snd (aper_new c' th' st) with Ok a, Ok a' => Pre n (revz n) Gam a a' | Err e, Err e' => e = e' | _, _ => False end.
Proof.
  pose proof (pre_new (c_gal c) (c_gal c') (c_ins c) (c_opt c) (c_prof c) n (revz n) (rev_reorders n) eq_refl eq_refl Gam turn_HG Tturn
            (fun a b => Tturn_disp _ a b Hn) turn_HV) as K.
  rewrite <- (cfg_eta c) in K. exact (K turn_HS th th' st).
Qed.
End Turn.

Lemma half_turn c d th st : g_dPA (c_gal c) = Fin d -> p_nvel (c_prof c) = 2%nat -> p_vel (c_prof c) = MProf.vel_arctan ->
  two_sided (p_disp (c_prof c)) -> (forall r h, p_int (c_prof c) r (fneg h) = p_int (c_prof c) r h) -> (3 <= length th)%nat ->
  same_image (aper_new c th st) (aper_new (at_angle (Fin (d + 180)) c) (flip1 th) st).
Proof.
  intros Hd Hn Hv Hs Hi L. destruct (turn_new c d Hd Hn Hv Hs Hi th (flip1 th) st (conj eq_refl L)) as [X Y]. split; [exact X|].
  destruct (snd (aper_new c th st)), (snd (aper_new _ _ _)); try contradiction; [|exact Y]. destruct Y as (? & ? & ? & ? & -> & _). reflexivity.
Qed.
