(* Proofs: preparation in two units of flux, masks of sky and faint rows, rows kept, weights, and all together. *)
From Coq Require Import Reals Lra Lia List Bool Arith ZArith.
From Verif Require Import PyFloat PyBase Arr PyNum PKernels PAper2D PBright MMask PMask MTrim PTrim PTrim2 MPrep SPrep PPrep SUnits PUnits PUnits2 PUnits3.
Import ListNotations.
Local Open Scope R_scope.

Section U.
Variable u : R.
Hypothesis Hu : 0 < u.
Variable c : cfg.
Hypothesis Hc : answers_in_unit u c.
Notation s_ := (fmul (Fin u)).
Notation like := (like u).
Notation outer := (outer u).
Notation R2 := (R2 u).
Ltac up := rewrite !bind_up2; cbn [e2 e1 e_dpa e_reg e_k].

(** After the sky mask: it has the rows of the quality mask. *)
Definition R3 (e e' : env) : Prop := like (converted_or_masked u) (e2 e) (e2 e') /\ outer e e' /\ rows_ok (e2 e) /\
  (forall a b, q_sky (e2 e) = Some a -> q_qual (e2 e) = Some b -> rows a = rows b).
(** After the row mask: the fit mask too. *)
Definition R4 (e e' : env) : Prop := R3 e e' /\ (forall a b, q_mask (e2 e) = Some a -> q_qual (e2 e) = Some b -> rows a = rows b).

Lemma need_some {A} x (o : option A) a : need x o = Ok a -> o = Some a.
Proof. destruct o; cbn; intros E; [now injection E as ->|discriminate]. Qed.
Lemma under_of o1 o2 sk a a' : pixelwise (fun i j => converted_or_masked u (masked o1 o2 (Some sk) i j)) a a' -> pixelwise (fun i j => under u (at2 sk i j)) a a'.
Proof. apply pixel_weaken. intros i j x x'. apply masked_weaken. intros (_ & _ & Z). now apply Z. Qed.
Lemma under_of_filled o1 o2 sk a a' : pixelwise (fun i j => converted_or_filled u (masked o1 o2 (Some sk) i j)) a a' -> pixelwise (fun i j => under u (at2 sk i j)) a a'.
Proof. intros H. apply (under_of o1 o2). eapply pixel_weaken; [|exact H]. intros i j x x'. apply filled_masked. Qed.

Lemma sky_units e e' : R2 e e' -> both (fun _ _ => R3) (prep_sky c e) (prep_sky c e').
Proof.
  intros (L & O & [B1 B2] & Ro). unfold prep_sky. rewrite !bind_get. destruct L as (F & L). rewrite (fr_qual _ _ F), B1. rewrite B1, B2 in L.
  apply both_bind with (fun _ _ f f' => unit_free (e2 f') = unit_free (e2 f) /\ (exists m, q_qual (e2 f) = Some m /\ q_mask (e2 f) = Some m) /\ q_sky (e2 f) = None /\ outer f f' /\ rows_ok (e2 f) /\
    (let z := masked (q_mask (e2 f)) None None in
     pixelwise_o (fun i j => converted_or_masked u (z i j)) (q_flux (e2 f)) (q_flux (e2 f')) /\ pixelwise_o (fun i j => converted_or_filled u (z i j)) (q_err (e2 f)) (q_err (e2 f')) /\
     pixelwise_o (fun i j => converted_or_filled u (z i j)) (q_incl (e2 f)) (q_incl (e2 f')) /\ q_cont (e2 f') = option_map (img_in u) (q_cont (e2 f)) /\ q_median (e2 f') = option_map s_ (q_median (e2 f)))).
  - rewrite (fr_mask _ _ F). apply both_same. intros m Em. apply need_some in Em. rewrite !up2_eq. apply both_ok. cbn [e2].
    split; [fu; exact F|]. split; [exists m; split; [reflexivity|exact Em]|]. split; [exact B2|]. split; [exact O|]. split; [exact Ro|exact L].
  - clear e e' O B1 B2 Ro F L. intros _ _ e e' (F & (m & Q1 & Q2) & Q3 & O & Ro & Lf & Le & Li & Lc & Lm). rewrite !bind_get. cbv zeta.
    rewrite (fr_qual _ _ F), Q1. rewrite Q2 in *. apply both_same. intros ql Eq. cbn [need] in Eq. injection Eq as <-.
    eapply both_lift; [apply need_o; exact Lf|]. intros fx fx' Pf _ _. eapply both_lift; [apply need_o; exact Le|]. intros er er' Pe _ _.
    rewrite (fr_cutoff _ _ F). apply both_same. intros cut _. rewrite Lm, (skylines_units u Hu fx fx' er er').
    2:{ apply Pf. } 2:{ eapply pixel_weaken; [|exact Pe]. intros i j x x' K. apply filled_masked in K. eapply masked_weaken; [|exact K]. intros Z. apply blank_masked in Z. now apply Z. }
    apply both_same. intros [[sk whs] wns] Es. cbn [fst snd]. up. rewrite !up2_eq. cbn [e2 e1 e_dpa e_reg e_k].
    assert (Sk : rows sk = rows m /\ forall i j, at2 m i j = Fin 0 -> at2 sk i j = Fin 0).
    { unfold mask_skylines_2D in Es. destruct (negb (snd cut)); [discriminate|]. destruct (negb (shape_eqb er m)); [discriminate|]. destruct (wh_skylines_1D _ _ _) as [ns|]; [|discriminate].
      cbn [bind] in Es. assert (E : Ok (sk, whs, wns) = Ok (sk, whs, wns)) by reflexivity. rewrite <- Es in E at 1. injection E as E _ _. rewrite <- E. cbn [rows at2]. split; [reflexivity|]. intros i j Z. destruct (memb j _); [reflexivity|exact Z]. }
    destruct Sk as [Sr Sz].
    assert (Zt : forall i j, masked (Some m) None None i j -> masked (Some m) (Some m) (Some sk) i j).
    { intros i j Z. apply blank_masked in Z. split; [exact Z|]. split; [exact Z|]. intros x X. injection X as <-. apply Sz. now apply Z. }
    apply both_ok. split; [|split; [exact O|split; [exact Ro|]]]; cbn [e2].
    + set (S1 := set_q_wh_nosky _ _). set (S1' := set_q_wh_nosky _ _). assert (G1 : q_mask S1 = Some m) by exact Q2. assert (G2 : q_qual S1 = Some m) by exact Q1. assert (G3 : q_sky S1 = Some sk) by reflexivity.
      unfold PUnits2.like. cbv zeta. rewrite G1, G2, G3. split; [unfold S1, S1'; fu; exact F|]. split; [|split; [|split; [|split; [exact Lc|exact Lm]]]].
      * eapply pixel_weaken_o; [|exact Lf]. intros i j x x'. apply masked_weaken. apply Zt.
      * eapply pixel_weaken_o; [|exact Le]. intros i j x x'. apply filled_weaken. apply Zt.
      * eapply pixel_weaken_o; [|exact Li]. intros i j x x'. apply filled_weaken. apply Zt.
    + intros a b Ea Eb. change (Some sk = Some a) in Ea. change (q_qual (e2 e) = Some b) in Eb. injection Ea as <-. rewrite Q1 in Eb. injection Eb as <-. exact Sr.
Qed.

Lemma fmul_zero x i : x = Fin 0 -> isfinite i = true -> fmul x i = Fin 0.
Proof. intros -> H. destruct i; cbn [isfinite] in H; try discriminate. cbn [fmul]. f_equal. ring. Qed.

Lemma low_stage e e' : R3 e e' -> both (fun _ _ => R4) (prep_low c e) (prep_low c e').
Proof.
  intros (L & O & Ro & Rs). unfold prep_low. rewrite !bind_get. cbv zeta. destruct L as (F & Lf & Le & Li & Lc & Lm).
  rewrite (fr_qual _ _ F). apply both_same. intros ql Eq. apply need_some in Eq.
  eapply both_lift; [apply need_o; exact Lf|]. intros fx fx' Pf _ _. eapply both_lift; [apply need_o; exact Le|]. intros er er' Pe _ _.
  rewrite (fr_sky _ _ F). apply both_same. intros sk Es. apply need_some in Es. rewrite Es in Pf, Pe.
  rewrite (low_units u Hu fx fx' er er' ql sk (g_cut c) (under_of _ _ _ _ _ Pf) (under_of_filled _ _ _ _ _ Pe)). apply both_same. intros [lw li] El. cbn [fst snd]. up.
  rewrite (fr_mask _ _ F). apply both_same. intros m Em. apply need_some in Em. apply both_same. intros m' Em'. rewrite !up2_eq. cbn [e2 e1 e_dpa e_reg e_k].
  assert (Lw : rows lw = rows ql /\ forall i j, at2 ql i j = Fin 0 -> at2 lw i j = Fin 0).
  { unfold mask_low_snr_rows_2D in El. destruct (negb _); [discriminate|]. destruct (forallb _ _); [|discriminate]. injection El as E _. rewrite <- E. cbn [rows at2]. split; [reflexivity|]. intros i j Z. destruct (memb i _); [reflexivity|exact Z]. }
  assert (Mm : rows m' = rows ql /\ forall i j, at2 m i j = Fin 0 -> at2 ql i j = Fin 0 -> at2 m' i j = Fin 0).
  { unfold times2 in Em'. destruct (shape_eqb m lw) eqn:Sh; [|discriminate]. injection Em' as E. rewrite <- E. cbn [rows at2]. unfold shape_eqb in Sh. apply andb_prop in Sh. destruct Sh as [Sh _]. apply Nat.eqb_eq in Sh.
    split; [rewrite Sh; apply Lw|]. intros i j Z1 Z2. rewrite Z1. apply fmul_zero; [reflexivity|]. rewrite (proj2 Lw i j Z2). reflexivity. }
  destruct Mm as [Mr Mz].
  assert (Zt : forall i j, masked (q_mask (e2 e)) (q_qual (e2 e)) (q_sky (e2 e)) i j -> masked (Some m') (Some ql) (Some sk) i j).
  { intros i j (Z1 & Z2 & Z3). rewrite Eq in Z2. rewrite Es in Z3. split; [|split; assumption]. intros x X. injection X as <-. apply Mz; [now apply Z1|now apply Z2]. }
  apply both_ok. split; [split; [|split; [exact O|split; [exact Ro|exact Rs]]]|]; cbn [e2].
  - set (S1 := set_q_mask _ _). set (S1' := set_q_mask _ _). assert (G1 : q_mask S1 = Some m') by reflexivity. assert (G2 : q_qual S1 = Some ql) by exact Eq. assert (G3 : q_sky S1 = Some sk) by exact Es.
    unfold PUnits2.like. cbv zeta. rewrite G1, G2, G3. split; [unfold S1, S1'; fu; exact F|]. split; [|split; [|split; [|split; [exact Lc|exact Lm]]]].
    + eapply pixel_weaken_o; [|exact Lf]. intros i j x x'. apply masked_weaken. apply Zt.
    + eapply pixel_weaken_o; [|exact Le]. intros i j x x'. apply filled_weaken. apply Zt.
    + eapply pixel_weaken_o; [|exact Li]. intros i j x x'. apply filled_weaken. apply Zt.
  - intros a b Ea Eb. change (Some m' = Some a) in Ea. change (q_qual (e2 e) = Some b) in Eb. injection Ea as <-. rewrite Eq in Eb. injection Eb as <-. exact Mr.
Qed.

Definition R5 (e e' : env) : Prop := like (converted_or_masked u) (e2 e) (e2 e') /\ outer e e'.

Lemma slice_is o l r a : slice_rows_o o l r = Ok a -> exists b, o = Some b /\ a = slice_rows b l r.
Proof. destruct o as [b|]; cbn; intros E; [injection E as <-; eauto|discriminate]. Qed.

Ltac upm := rewrite !bind_mod; cbn [fst snd].
Lemma spatial_units e e' : R4 e e' -> both (fun _ _ => R5) (prep_spatial c e) (prep_spatial c e').
Proof.
  intros ((L & (O1 & O2 & O3) & Ro & Rs) & Rm). unfold prep_spatial.
  assert (T : both (fun _ _ (p p' : sp2 * option sp1) => like (converted_or_masked u) (fst p) (fst p') /\ snd p' = option_map (sp1_in u) (snd p))
    (trim_2D_spatial (g_dither c) (g_cut c) (g_vert c) (e2 e, e1 e)) (trim_2D_spatial (g_dither c) (g_cut c) (g_vert c) (e2 e', e1 e'))).
  2:{ destruct (trim_2D_spatial _ _ _ (e2 e, e1 e)) as [a [[]|x]]; destruct (trim_2D_spatial _ _ _ (e2 e', e1 e')) as [a' [[]|x']]; cbn [both snd fst] in *; try contradiction; [|exact T].
      destruct T as (T1 & T2). split; [exact T1|]. split; [exact T2|]. split; assumption. }
  rewrite O1. generalize (e1 e). intros t. clear O1 O2 O3. destruct L as (F & Lf & Le & Li & Lc & Lm).
  unfold trim_2D_spatial. cbv zeta. rewrite !bind_get. cbn [fst snd].
  eapply both_lift; [apply need_o; exact Lf|]. intros fx fx' Pf Ef Ef'. apply need_some in Ef, Ef'.
  rewrite (fr_sky _ _ F). apply both_same. intros sk Es. apply need_some in Es. rewrite Es in *.
  rewrite (times_units u Hu fx fx' sk (under_of _ _ _ _ _ Pf)). eapply both_lift; [apply rel_res|]. intros fm fm' -> Efm _.
  eapply both_lift; [apply need_o; exact Le|]. intros er er' Pe Ee Ee'. apply need_some in Ee, Ee'.
  rewrite (times_units u Hu er er' sk (under_of_filled _ _ _ _ _ Pe)). eapply both_lift; [apply rel_res|]. intros em em' -> Eem _.
  rewrite (fr_obs _ _ F), (fr_ypos _ _ F). apply both_same. intros ow _. destruct Hc as (_ & _ & _ & Hv & _). rewrite Hv. apply both_same. intros v _.
  rewrite (proj1 Pf).
  set (l := if g_dither c then Z.max 0 (v_min v) else 0%Z). set (r := if g_dither c then Z.min (Z.of_nat (rows fx) - 1) (v_max v) else (Z.of_nat (rows fx) - 1)%Z). clearbody l r.
  upm.
  eapply both_lift; [apply slice_units; exact Li|]. intros ic ic' Pi Ei _. upm.
  rewrite Lc, (slice_in u). eapply both_lift; [apply rel_res|]. intros ct ct' -> _ _. upm.
  rewrite (fr_weight _ _ F). apply both_same. intros wt _. upm.
  rewrite (fr_mask _ _ F). apply both_same. intros mk Emk. upm.
  rewrite (fr_qual _ _ F). apply both_same. intros ql Eql. upm.
  apply both_same. intros sk2 Esk2. upm.
  rewrite (fr_low _ _ F). apply both_same. intros lw _. upm.
  apply slice_is in Emk, Eql, Esk2, Ei. destruct Emk as (mk0 & Em0 & ->). destruct Eql as (ql0 & Eq0 & ->). destruct Esk2 as (sk0 & Es0 & ->). destruct Ei as (ic0 & Ei0 & ->). injection Es0 as <-.
  rewrite Ei0 in Pi.
  assert (S1 : rows fx = rows sk). { unfold times2 in Efm. destruct (shape_eqb fx sk) eqn:Sh; [|discriminate]. unfold shape_eqb in Sh. apply andb_prop in Sh. now apply Nat.eqb_eq. }
  assert (S2 : rows er = rows sk). { unfold times2 in Eem. destruct (shape_eqb er sk) eqn:Sh; [|discriminate]. unfold shape_eqb in Sh. apply andb_prop in Sh. now apply Nat.eqb_eq. }
  assert (S3 : rows sk = rows ql0) by (apply Rs; [reflexivity|exact Eq0]).
  assert (S4 : rows mk0 = rows ql0) by (apply Rm; assumption).
  assert (S5 : rows ic0 = rows fx) by (apply Ro; assumption).
  set (lo := slice_bound (rows fx) l).
  assert (Zt : forall i j, masked (q_mask (e2 e)) (q_qual (e2 e)) (Some sk) (lo + i) j -> masked (Some (slice_rows mk0 l r)) (Some (slice_rows ql0 l r)) (Some (slice_rows sk l r)) i j).
  { intros i j (Z1 & Z2 & Z3). rewrite Em0 in Z1. rewrite Eq0 in Z2. unfold lo in *. split; [|split]; intros x X; injection X as <-; unfold slice_rows; cbn [at2].
    - replace (rows mk0) with (rows fx) by congruence. now apply Z1.
    - replace (rows ql0) with (rows fx) by congruence. now apply Z2.
    - replace (rows sk) with (rows fx) by congruence. now apply Z3. }
  assert (Pf2 : pixelwise (fun i j => converted_or_masked u (masked (Some (slice_rows mk0 l r)) (Some (slice_rows ql0 l r)) (Some (slice_rows sk l r)) i j)) (slice_rows fx l r) (slice_rows fx' l r)).
  { destruct Pf as (A & B & C). split; [cbn [slice_rows rows]; now rewrite A|]. split; [exact B|]. intros i j. change (at2 (slice_rows fx l r) i j) with (at2 fx (slice_bound (rows fx) l + i)%nat j). change (at2 (slice_rows fx' l r) i j) with (at2 fx' (slice_bound (rows fx') l + i)%nat j). rewrite A. eapply masked_weaken; [apply Zt|apply C]. }
  assert (Pe2 : pixelwise (fun i j => converted_or_filled u (masked (Some (slice_rows mk0 l r)) (Some (slice_rows ql0 l r)) (Some (slice_rows sk l r)) i j)) (slice_rows er l r) (slice_rows er' l r)).
  { destruct Pe as (A & B & C). split; [cbn [slice_rows rows]; now rewrite A|]. split; [exact B|]. intros i j. change (at2 (slice_rows er l r) i j) with (at2 er (slice_bound (rows er) l + i)%nat j). change (at2 (slice_rows er' l r) i j) with (at2 er' (slice_bound (rows er') l + i)%nat j). rewrite A. replace (rows er) with (rows fx) by congruence. eapply filled_weaken; [apply Zt|apply C]. }
  assert (Pi2 : pixelwise (fun i j => converted_or_filled u (masked (Some (slice_rows mk0 l r)) (Some (slice_rows ql0 l r)) (Some (slice_rows sk l r)) i j)) (slice_rows ic0 l r) ic').
  { eapply pixel_weaken; [|exact Pi]. intros i j x x'. apply filled_weaken. rewrite S5. apply Zt. }
  rewrite (low_units u Hu _ (slice_rows fx' l r) _ (slice_rows er' l r) (slice_rows ql0 l r) (slice_rows sk l r) (g_cut c) (under_of _ _ _ _ _ Pf2) (under_of_filled _ _ _ _ _ Pe2)).
  apply both_same. intros p _. upm.
  set (S := set_q_low_inds _ _). set (S' := set_q_low_inds _ _).
  assert (G : like (converted_or_masked u) S S').
  { assert (G1 : q_mask S = Some (slice_rows mk0 l r)) by reflexivity. assert (G2 : q_qual S = Some (slice_rows ql0 l r)) by reflexivity. assert (G3 : q_sky S = Some (slice_rows sk l r)) by reflexivity.
    unfold PUnits2.like. cbv zeta. rewrite G1, G2, G3. split; [unfold S, S'; fu; exact F|]. split; [exact Pf2|]. split; [exact Pe2|]. split; [exact Pi2|]. split; [reflexivity|exact Lm]. }
  clearbody S S'.
  apply both_bind with (fun _ _ (q q' : sp2 * option sp1) => fst q = S /\ fst q' = S' /\ snd q' = option_map (sp1_in u) (snd q)).
  - destruct t as [t|]; cbn [option_map]; [|repeat split]. change (s_profile (sp1_in u t)) with (s_profile t). destruct (s_profile t); [|repeat split]. apply both_ok. repeat split.
  - intros _ _ [q t1] [q' t1'] (E1 & E2 & E3). cbn [fst snd] in *. subst q q' t1'. upm. 
    replace (rows (slice_rows fx' l r)) with (rows (slice_rows fx l r)) by (symmetry; apply Pf2). apply both_same. intros y _. unfold modS. apply both_ok. cbn [fst snd]. split; [|reflexivity].
    destruct G as (F' & G). split; [fu; exact F'|exact G].
Qed.

Lemma weights_stage e e' : R5 e e' -> both (fun _ _ => R5) (prep_weights c e) (prep_weights c e').
Proof.
  intros (L & O). unfold prep_weights. rewrite !bind_get. cbv zeta. assert (L0 := L). destruct L as (F & Lf & Le & Li & Lc & Lm).
  eapply both_lift; [apply need_o; exact Lf|]. intros fx fx' Pf _ _. eapply both_lift; [apply need_o; exact Le|]. intros er er' Pe _ _.
  rewrite (fr_sky _ _ F). apply both_same. intros sk Es. apply need_some in Es. rewrite Es in Pf, Pe, Li.
  eapply both_lift; [apply need_o; exact Li|]. intros ic ic' Pi _ _. rewrite (fr_low_inds _ _ F).
  assert (Pf' := under_of _ _ _ _ _ Pf). assert (Pe' := under_of_filled _ _ _ _ _ Pe).
  assert (W : fit_weights (g_wt c) fx' er' sk (q_low_inds (e2 e)) (g_fit3 c ic' er' sk) = fit_weights (g_wt c) fx er sk (q_low_inds (e2 e)) (g_fit3 c ic er sk)).
  { destruct (g_fit3 c ic er sk) as [[A mu] sg] eqn:E3. apply (weights_units u Hu); [exact Pf'|exact Pe'|]. intros Op. destruct Hc as (_ & _ & _ & _ & H3).
    rewrite (H3 Op ic ic' er er' sk).
    - rewrite E3. reflexivity.
    - eapply pixel_weaken; [|exact Pi]. intros i j x x'. apply filled_weaken. intros (_ & _ & Z). now apply Z.
    - eapply pixel_weaken; [|exact Pe]. intros i j x x'. apply filled_weaken. intros (_ & _ & Z). now apply Z. }
  rewrite W. apply both_same. intros [w1 w2] _. cbn [fst snd]. up. rewrite !up2_eq. cbn [e2 e1 e_dpa e_reg e_k]. apply both_ok. split; [|exact O]. cbn [e2].
  destruct L0 as (_ & X). split; [fu; exact F|exact X].
Qed.
Lemma dpa_stage e e' : R5 e e' -> both (fun _ _ => R5) (prep_dpa c e) (prep_dpa c e').
Proof.
  intros (L & O1 & O2 & O3). unfold prep_dpa. rewrite !bind_get. rewrite O2. destruct (e_dpa e) eqn:E; [unfold ret; apply both_ok; split; [exact L|split; [exact O1|split; [congruence|exact O3]]]|]. apply both_same. intros d _. unfold modS. apply both_ok.
  split; [exact L|]. split; [exact O1|]. split; [reflexivity|exact O3].
Qed.
Lemma m0_stage e e' : R5 e e' -> both (fun _ _ => R5) (prep_m0_lam0 c e) (prep_m0_lam0 c e').
Proof.
  intros (L & O). unfold prep_m0_lam0. rewrite !bind_get. cbv zeta. destruct L as (F & Lf & X).
  rewrite (fr_mlims _ _ F). apply both_same. intros n _. eapply both_lift; [apply need_o; exact Lf|]. intros fx fx' _ _ _.
  rewrite (fr_wave _ _ F), (fr_m0 _ _ F), (fr_ypos _ _ F), (fr_lam0 _ _ F), (fr_low_inds _ _ F), (fr_nosky _ _ F), (fr_m0_fit _ _ F), (fr_m0_snr _ _ F).
  apply both_same. intros w _. apply both_same. intros m0 _. apply both_same. intros y _. apply both_same. intros l0 _.
  assert (G : forall a b, both (fun _ _ => R5) ((sdo _ <- up2 (set_q_m0_shift a); up2 (set_q_lam0 b)) e) ((sdo _ <- up2 (set_q_m0_shift a); up2 (set_q_lam0 b)) e')).
  { intros a b. up. rewrite !up2_eq. cbn [e2 e1 e_dpa e_reg e_k]. apply both_ok. split; [|exact O]. cbn [e2]. split; [fu; exact F|]. split; [exact Lf|exact X]. }
  destruct (setdiff_range n (q_low_inds (e2 e))); [apply G|]. destruct (q_wh_nosky (e2 e)); [apply G|].
  apply both_same. intros _ _. apply both_same. intros wmin _. apply both_same. intros wmax _. apply both_same. intros _ _. apply G.
Qed.

Lemma body_units e e' : R0 u tt tt e e' -> both (fun _ _ => R5) (prep_body c e) (prep_body c e').
Proof.
  intros H. unfold prep_body. apply both_same. intros _ _.
  apply both_bind with (R0 u); [now apply skylevels_units|]. clear e e' H. intros [] [] e e' H.
  apply both_bind with (R0 u); [now apply derived_units|]. clear e e' H. intros [] [] e e' H.
  apply both_bind with (R0 u); [now apply ensure_units|]. clear e e' H. intros [] [] e e' H.
  apply both_bind with (fun _ _ => R2); [now apply continuum_units|]. clear e e' H. intros [] [] e e' H.
  apply both_bind with (fun _ _ => R2); [now apply ptrim_units|]. clear e e' H. intros [] [] e e' H.
  apply both_bind with (fun _ _ => R3); [now apply sky_units|]. clear e e' H. intros [] [] e e' H.
  apply both_bind with (fun _ _ => R4); [now apply low_stage|]. clear e e' H. intros [] [] e e' H.
  apply both_bind with (fun _ _ => R5); [now apply spatial_units|]. clear e e' H. intros [] [] e e' H.
  apply both_bind with (fun _ _ => R5); [now apply weights_stage|]. clear e e' H. intros [] [] e e' H.
  apply both_bind with (fun _ _ => R5); [now apply dpa_stage|]. clear e e' H. intros [] [] e e' H.
  apply both_bind with (fun _ _ => R5); [now apply m0_stage|]. clear e e' H. intros [] [] e e' [(F & X) O].
  rewrite !up2_eq. apply both_ok. split; [|exact O]. cbn [e2]. split; [fu; exact F|exact X].
Qed.

Lemma prep_units_ e e' : handed_in u e e' -> unprepared (e2 e) ->
  both (fun _ _ f f' => same_but_unit u (e2 f) (e2 f') /\ e1 f' = option_map (sp1_in u) (e1 f) /\ e_dpa f' = e_dpa f /\ e_reg f' = e_reg f) (fit_prep c e) (fit_prep c e').
Proof.
  intros H (Q1 & Q2 & Q3). unfold fit_prep. rewrite !bind_get. destruct H as (A & H). rewrite A. change (q_prepared (sp2_in u (e2 e))) with (q_prepared (e2 e)). rewrite Q3.
  apply both_bind with (fun _ _ => R5).
  - apply body_units. split; [split; [exact A|exact H]|]. split; assumption.
  - intros _ _ f f' (L & O1 & O2 & O3). unfold modS. apply both_ok. cbn [e2 e1 e_dpa e_reg]. split; [exact L|]. repeat split; assumption.
Qed.
End U.
