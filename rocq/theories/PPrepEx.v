(* Fit preparation: the forms used in the property theorems, and concrete cases. *)
From Coq Require Import Reals List Bool Arith ZArith Lra Lia.
From Verif Require Import PyFloat PyBase Arr PyNum MKernels SKernels PKernels PData MMask SMask PMask PMask2 MTrim STrim PTrim PTrim2 MPrep SPrep PPrep PPrep2 PPrep3 PPrep4 PPrep5.
Import ListNotations.
Local Open Scope R_scope.

Lemma prep_decomposed c e e' wave fx er n : raw (e2 e) wave fx er n -> physical wave -> shared e fx er -> fit_prep c e = (e', Ok tt) -> decomposed (e2 e').
Proof.
  intros R Ph Al H. destruct (prep_facts _ _ _ _ _ _ _ R Ph Al H) as (wave' & n' & fx' & er' & m' & w' & ic & ct & ql & sk & lw & a & rf & rl & Co & P & _).
  destruct Co as (_ & _ & Rd & _). destruct Rd as [Rd Sh]. cbn [map] in Rd. injection Rd as E1 E2 E3 E4 E5 E6 E7 E8 E9.
  assert (Sf : shape fx' n' (length wave')) by (apply Sh; cbn; tauto). destruct Sf as [Sr Sc].
  exists fx', ct, ic. split; [congruence|]. split; [congruence|]. split; [congruence|]. rewrite Sr, Sc.
  split; [apply Sh; cbn; tauto|]. split; [apply Sh; cbn; tauto|]. intros i j Hi Hj. apply P; auto.
Qed.

Lemma prep_lines c e e' wave fx er n : raw (e2 e) wave fx er n -> physical wave -> shared e fx er -> fit_prep c e = (e', Ok tt) ->
  exists wave' ct, q_wave (e2 e') = Some wave' /\ q_cont (e2 e') = Some ct /\ cols ct = length wave' /\ lines_of_one_slope wave' ct.
Proof.
  intros R Ph Al H. destruct (prep_facts _ _ _ _ _ _ _ R Ph Al H) as (wave' & n' & fx' & er' & m' & w' & ic & ct & ql & sk & lw & a & rf & rl & Co & P & L & _).
  destruct Co as (W & _ & Rd & _). destruct Rd as [Rd Sh]. cbn [map] in Rd. injection Rd as E1 E2 E3 E4 E5 E6 E7 E8 E9.
  assert (Sc : shape ct n' (length wave')) by (apply Sh; cbn; tauto). destruct Sc as [Sr Sc].
  exists wave', ct. split; [exact W|]. split; [congruence|]. split; [exact Sc|]. exists a. rewrite Sr. exact L.
Qed.

Lemma chisq_finite fx er m w cs md n p : shape fx n p -> shape er n p -> shape m n p -> shape w n p -> shape md n p ->
  finite2 fx -> finite2 er -> finite2 m -> finite2 w -> finite2 md -> (forall i j, (i < n)%nat -> (j < p)%nat -> at2 er i j <> Fin 0) ->
  isfinite (model_chisq (mkdata fx er m w cs) md) = true.
Proof.
  intros [A1 A2] [B1 B2] [C1 C2] [D1 D2] [E1 E2] Ff Fe Fm Fw Fd Nz. unfold finite2 in *. rewrite A1, A2 in Ff. rewrite B1, B2 in Fe. rewrite C1, C2 in Fm. rewrite D1, D2 in Fw. rewrite E1, E2 in Fd.
  unfold model_chisq. erewrite sum2_Fin; [reflexivity|]. cbn [rows cols at2 flux ferr smask fwt]. rewrite E1, E2. intros i j Hi Hj.
  specialize (Nz i j Hi Hj). rewrite (finite_val _ (Fe i j Hi Hj)) in *. rewrite (finite_val _ (Ff i j Hi Hj)), (finite_val _ (Fm i j Hi Hj)), (finite_val _ (Fw i j Hi Hj)), (finite_val _ (Fd i j Hi Hj)).
  unfold fsub. cbn [fneg fadd fmul]. rewrite fdiv_Fin by congruence. cbn [fsq fmul]. 
  instantiate (1 := fun i j => _ (val (at2 fx i j)) (val (at2 er i j)) (val (at2 m i j)) (val (at2 w i j)) (val (at2 md i j))). cbv beta.
  instantiate (1 := fun f e m w d => (((f + - d) * m / e) * ((f + - d) * m / e)) * w). reflexivity.
Qed.

Lemma no_zero_noz fx er mask weight n p : shape fx n p -> no_zero_error fx er mask weight -> noz fx er (the_mask mask fx) (the_mask weight fx) n p.
Proof.
  intros [S1 S2] N i j Hi Hj E. destruct (N i j) as [(m & -> & H)|[H|(w & -> & H)]]; rewrite ?S1, ?S2; auto.
Qed.

Lemma prep_finite c e e' wave fx er n : raw (e2 e) wave fx er n -> physical wave -> shared e fx er -> fit_prep c e = (e', Ok tt) ->
  exists fx' er', q_flux (e2 e') = Some fx' /\ q_err (e2 e') = Some er' /\ finite2 fx' /\ finite2 er' /\
    (no_zero_error fx er (q_mask (e2 e)) (q_weight (e2 e)) ->
     forall m w md cs, shape m (rows fx') (cols fx') -> shape w (rows fx') (cols fx') -> shape md (rows fx') (cols fx') ->
       finite2 m -> finite2 w -> finite2 md -> isfinite (model_chisq (mkdata fx' er' m w cs) md) = true).
Proof.
  intros R Ph Al H. destruct (prep_facts _ _ _ _ _ _ _ R Ph Al H) as (wave' & n' & fx' & er' & m' & w' & ic & ct & ql & sk & lw & a & rf & rl & Co & P & L & _).
  destruct Co as (W & _ & Rd & _). destruct Rd as [Rd Sh]. cbn [map] in Rd. injection Rd as E1 E2 E3 E4 E5 E6 E7 E8 E9.
  assert (Sf : shape fx' n' (length wave')) by (apply Sh; cbn; tauto). assert (Se : shape er' n' (length wave')) by (apply Sh; cbn; tauto).
  assert (Ff : finite2 fx'). { destruct Sf as [Sr Sc]. intros i j Hi Hj. rewrite Sr in Hi. rewrite Sc in Hj. apply (P i j Hi Hj). }
  assert (Fe : finite2 er'). { destruct Se as [Sr Sc]. intros i j Hi Hj. rewrite Sr in Hi. rewrite Sc in Hj. apply (P i j Hi Hj). }
  exists fx', er'. split; [congruence|]. split; [congruence|]. split; [exact Ff|]. split; [exact Fe|].
  intros N m w md cs Sm Sw Sd Fm Fw Fd. rewrite (proj1 Sf), (proj2 Sf) in Sm, Sw, Sd. apply chisq_finite with n' (length wave'); auto.
  intros i j Hi Hj. apply (P i j Hi Hj). apply no_zero_noz; [|exact N]. destruct R as (_ & _ & _ & _ & R & _). exact R.
Qed.

(** Any zero error, masked or not, makes chi-squared non-finite. *)
Lemma zero_error_poisons d md i j : (i < rows md)%nat -> (j < cols md)%nat -> at2 (ferr d) i j = Fin 0 -> isfinite (model_chisq d md) = false.
Proof.
  intros Hi Hj E. unfold model_chisq, sum2, fsumn. cbn [rows cols at2]. apply fsum_nonfin. eexists. split; [apply in_map_iff; exists i; split; [reflexivity|apply in_seq; lia]|].
  apply fsum_nonfin. eexists. split; [apply in_map_iff; exists j; split; [reflexivity|apply in_seq; lia]|]. rewrite E.
  match goal with |- context [fdiv ?y (Fin 0)] => set (x := y) end. assert (X : isfinite (fsq (fdiv x (Fin 0))) = false).
  { unfold fdiv. rewrite ?Reqb_refl. destruct x as [r| | |]; [| destruct (Rltb 0 0); reflexivity | destruct (Rltb 0 0); reflexivity | reflexivity].
    destruct (Reqb r 0); [reflexivity|]. destruct (Rltb 0 r); reflexivity. }
  destruct (fsq (fdiv x (Fin 0))) as [r| | |]; [discriminate| | |]; destruct (at2 (fwt d) i j) as [r| | |]; cbn [fmul]; try reflexivity.
  all: unfold inf_scale; match goal with |- context [Reqb ?r 0] => destruct (Reqb r 0); try reflexivity; destruct (Rltb 0 r); reflexivity end.
Qed.

Lemma is10 : feqb (Fin 1) (Fin 0) = false.
Proof. destruct (feqb (Fin 1) (Fin 0)) eqn:E; [|reflexivity]. apply feqb0 in E. injection E as E. lra. Qed.
Lemma is00 : feqb (Fin 0) (Fin 0) = true.
Proof. now apply feqb0. Qed.

(** Masking and filling leave a zero error at a usable pixel as it is. *)
Lemma zero_error_stays fx er m w n p i j r : shape fx n p -> shape er n p -> shape m n p -> shape w n p -> (i < n)%nat -> (j < p)%nat ->
  at2 er i j = Fin 0 -> at2 fx i j = Fin r -> at2 m i j = Fin 1 -> at2 w i j = Fin 1 ->
  exists m', spec_mask_missing_2D fx er (Some w) (Some m) true = Ok m' /\ at2 m' i j = Fin 1 /\ at2 (spec_nan_masking er m' (Fin (-99)) true false) i j = Fin 0.
Proof.
  intros [A1 A2] [B1 B2] [C1 C2] [D1 D2] Hi Hj E F M W. unfold spec_mask_missing_2D. 
  destruct (np_max (map fabs (entries er))) as [mx|] eqn:Em.
  2:{ exfalso. assert (X : In (at2 er i j) (entries er)) by (apply in_entries; exists i, j; rewrite B1, B2; auto). destruct (entries er); [destruct X|discriminate]. }
  cbn [bind negb andb]. unfold mask_where2.
  rewrite (proj2 (shape_eqb_true fx m)) by (split; congruence). cbn [bind].
  match goal with |- context [shape_eqb er ?x] => rewrite (proj2 (shape_eqb_true er x)) by (split; cbn [rows cols]; congruence) end. cbn [bind].
  match goal with |- context [shape_eqb w ?x] => rewrite (proj2 (shape_eqb_true w x)) by (split; cbn [rows cols]; congruence) end. cbn [bind].
  eexists. split; [reflexivity|]. cbn [at2 rows cols]. unfold spec_nan_masking. cbn [at2 rows cols]. rewrite ?E, ?F, ?M, ?W. cbn [isfinite negb].
  rewrite ?is10, ?is00. cbn [andb orb negb]. rewrite ?E, ?F, ?M, ?W, ?is10, ?is00. cbn [andb orb negb isfinite]. rewrite ?E, ?M, ?is10, ?is00. cbn [andb orb negb isfinite]. rewrite ?E, ?M, ?is10, ?is00. auto.
Qed.

(** After a successful preparation the arrays the caller handed over hold no NaN or infinity. *)
Lemma caller_written c e e' wave fx er n : raw (e2 e) wave fx er n -> physical wave -> k_a2 (e_k e) = true -> k_flux (e_k e) = fx -> k_err (e_k e) = er ->
  fit_prep c e = (e', Ok tt) -> forall i j, (i < n)%nat -> (j < length wave)%nat ->
  isfinite (at2 (k_flux (e_k e')) i j) = true /\ isfinite (at2 (k_err (e_k e')) i j) = true /\
  (g_nocont c = true -> isfinite (at2 fx i j) = true -> at2 (k_flux (e_k e')) i j = at2 fx i j).
Proof.
  intros R Ph A B C H i j Hi Hj. destruct (prep_facts _ _ _ _ _ _ _ R Ph (fun _ => conj B C) H) as (wave' & n' & fx' & er' & m' & w' & ic & ct & ql & sk & lw & a & rf & rl & _ & _ & _ & _ & _ & _ & _ & _ & _ & _ & K).
  destruct (K A) as (_ & _ & K'). apply K'; auto.
Qed.

Lemma prep_keeps c e wave fx er n fr lr fo lo : preparable c e wave fx er n fr lr -> shared e fx er ->
  asked (g_z c) (Some fr) None fo -> asked (g_z c) (Some lr) None lo ->
  exists e' wave' n' imgs, fit_prep c e = (e', Ok tt) /\ consistent (e2 e') wave' n' imgs /\
    (forall x, In x wave' <-> In x wave /\ inside fo x /\ inside lo x) /\ wave' <> [] /\ q_prepared (e2 e') = true /\ e_reg e' = true /\ e_dpa e' <> None.
Proof.
  intros P Al Af Alo. destruct (prep_succeeds _ _ _ _ _ _ _ _ P Al) as (e' & H). destruct P as [(R & Ph & _ & _ & _ & Fr & Lr & _) _].
  destruct (prep_facts _ _ _ _ _ _ _ R Ph Al H) as (wave' & n' & fx' & er' & m' & w' & ic & ct & ql & sk & lw & a & rf & rl & Co & _ & _ & Grf & Grl & Wv & Ne & Pp & Rg & Dp & _).
  rewrite (setting_range _ _ _ Fr) in Grf. rewrite (setting_range _ _ _ Lr) in Grl. injection Grf as <-. injection Grl as <-.
  apply asked_to_obs in Af, Alo. subst. eauto 12.
Qed.

(** A 4 by 2 image with a missing pixel. *)
Definition ex_flux : arr2 fl := mk2 4 2 (fun i _ => match i with 0%nat => NaN | _ => Fin 1 end).
Definition ex_sp (y : option fl) : sp2 := mkSp2 (Some [Fin 10; Fin 11]) (Some [Fin 10; Fin 11]) None (Some ex_flux) (Some (ones 4 2)) None None None None None None None
  [] [] [] None (Some (Fin 2, true)) None None None None None None None y None NaN NaN None None None None None false.
Definition ex_cfg (dither nocont : bool) : cfg := mkCfg (Fin 0) dither (Fin 2) UpEdges nocont (Ok tt) (Fin 10) (Err ValueError)
  (Ok (Fin 5, Fin 15)) (Ok (Fin 8, Fin 12)) (Ok (Fin 9, Fin 11)) (fun _ => Fin 1) (fun _ _ _ _ _ => Ok (Fin 0, Fin 0)) (fun _ _ _ _ _ _ _ => Ok (Fin 0))
  (fun _ _ _ _ => Ok (mkVpos 2 (Fin 0) (Fin 5) 1 3)) (fun _ _ _ => (Fin 1, Fin 1, Fin 1)) None None (Ok (Fin 0)).
Definition ex_env (y : option fl) : env := mkEnv (ex_sp y) (Some (mkSp1 (Some [Fin 10; Fin 11]) (Some [Fin 10; Fin 11]) None (Some [Fin 1; Fin 1]) (Some [Fin 1; Fin 1]) None None None None)) None false (mkCaller ex_flux (ones 4 2) (ones 4 2) [] true false false).

Lemma ex_set_up dither nc y : set_up (ex_cfg dither nc) (ex_env y) [Fin 10; Fin 11] ex_flux (ones 4 2) 4 (Fin 5, Fin 15) (Fin 8, Fin 12).
Proof.
  split; [|split; [|split; [lia|split; [reflexivity|split; [|split; [|split; [|split; [|split; [|split; [|split; [|split]]]]]]]]]]].
  - repeat split; intros; discriminate.
  - intros x [<-|[<-|[]]]; eexists; (split; [reflexivity|lra]).
  - exists (Fin 2). left. reflexivity.
  - right. split; reflexivity.
  - right. split; reflexivity.
  - exists (Fin 9, Fin 11). right. split; reflexivity.
  - exists (Fin 10), (to_obs (Fin 0) (Fin 5, Fin 15)), (to_obs (Fin 0) (Fin 8, Fin 12)). split; [now left|]. split; [apply asked_rest|]. split; [apply asked_rest|].
    split; unfold inside, to_obs; cbn [fst snd fmul fadd fleb]; unfold Rleb; split; (destruct Rle_dec; [reflexivity|lra]).
  - right. do 4 eexists. repeat (split; [reflexivity|]). split; [discriminate|]. split; intros; [do 2 eexists; reflexivity|eexists; reflexivity].
  - intros a b w y0. eexists. reflexivity.
  - discriminate.
  - eexists. reflexivity.
Qed.
Lemma ex_shared y : shared (ex_env y) ex_flux (ones 4 2).
Proof. intros _. split; reflexivity. Qed.
Lemma ex_preparable dither nc : preparable (ex_cfg dither nc) (ex_env (Some (Fin 2))) [Fin 10; Fin 11] ex_flux (ones 4 2) 4 (Fin 5, Fin 15) (Fin 8, Fin 12).
Proof.
  split; [apply ex_set_up|]. split; [discriminate|]. split.
  - unfold two_rows. destruct dither; cbn [ex_cfg g_dither g_vert]; [|lia]. intros a b w y v E. inversion E. cbn. lia.
  - exists 10, 11, (to_obs (Fin 0) (Fin 5, Fin 15)), (to_obs (Fin 0) (Fin 8, Fin 12)). split; [now left|]. split; [right; now left|].
    split; [apply asked_rest|]. split; [apply asked_rest|].
    do 4 (split; [unfold inside, to_obs; cbn [fst snd fmul fadd fleb]; unfold Rleb; split; (destruct Rle_dec; [reflexivity|lra])|]). lra.
Qed.
Lemma ex_prep dither nc : exists e', fit_prep (ex_cfg dither nc) (ex_env (Some (Fin 2))) = (e', Ok tt).
Proof. apply (prep_succeeds _ _ _ _ _ _ _ _ (ex_preparable dither nc) (ex_shared _)). Qed.

(** Preparation overwrites the caller's flux array. *)
Lemma caller_refuted : exists c e e' wave er n, raw (e2 e) wave ex_flux er n /\ k_flux (e_k e) = ex_flux /\ fit_prep c e = (e', Ok tt) /\
  at2 (k_flux (e_k e)) 0 0 = NaN /\ isfinite (at2 (k_flux (e_k e')) 0 0) = true.
Proof.
  destruct (ex_prep false true) as (e' & H). destruct (ex_preparable false true) as [(R & Ph & _) _].
  exists (ex_cfg false true), (ex_env (Some (Fin 2))), e', [Fin 10; Fin 11], (ones 4 2), 4%nat. split; [exact R|]. split; [reflexivity|]. split; [exact H|]. split; [reflexivity|].
  destruct (caller_written _ _ _ _ _ _ _ R Ph eq_refl eq_refl eq_refl H 0 0) as (X & _); [lia|cbn; lia|exact X].
Qed.
(** A failing preparation has already cut the data and does not mark it. *)
Lemma failure_refuted : exists c e e' fx', set_up c e [Fin 10; Fin 11] ex_flux (ones 4 2) 4 (Fin 5, Fin 15) (Fin 8, Fin 12) /\
  fit_prep c e = (e', Err TypeError) /\ q_flux (e2 e) = Some ex_flux /\ rows ex_flux = 4%nat /\ q_flux (e2 e') = Some fx' /\ rows fx' = 3%nat /\ q_prepared (e2 e') = false.
Proof.
  destruct (prep_fails _ _ _ _ _ _ _ _ (ex_set_up false true None) (ex_shared None) eq_refl eq_refl) as (e' & fx' & H & P & F & Rw).
  exists (ex_cfg false true), (ex_env None), e', fx'. split; [apply ex_set_up|]. split; [exact H|]. repeat split; assumption.
Qed.
Lemma zero_error_example : exists m', spec_mask_missing_2D (ones 2 2) (mk2 2 2 (fun _ _ => Fin 0)) (Some (ones 2 2)) (Some (ones 2 2)) true = Ok m' /\ at2 m' 0 0 = Fin 1 /\
   at2 (spec_nan_masking (mk2 2 2 (fun _ _ => Fin 0)) m' (Fin (-99)) true false) 0 0 = Fin 0.
Proof. apply zero_error_stays with (ones 2 2) 2%nat 2%nat 1 || (eapply zero_error_stays with (n := 2%nat) (p := 2%nat) (r := 1); try (repeat split; lia); reflexivity). Qed.

Lemma needs_two c e e' wave fx er n : raw (e2 e) wave fx er n -> physical wave -> shared e fx er -> fit_prep c e = (e', Ok tt) ->
  exists wave' n', q_wave (e2 e') = Some wave' /\ q_mlims (e2 e') = Some n' /\
    (usable (e2 e') n' -> (2 <= n')%nat /\ exists a b, In (Fin a) wave' /\ In (Fin b) wave' /\ a <> b).
Proof.
  intros R Ph Al H. destruct (prep_placed _ _ _ _ _ _ _ R Ph Al H) as (wave' & n' & m0 & y & sh & l0 & lam & A & B & _ & _ & _ & _ & _ & _ & C & _).
  exists wave', n'. auto.
Qed.
Lemma prep_position c e e' wave fx er n : raw (e2 e) wave fx er n -> physical wave -> shared e fx er -> fit_prep c e = (e', Ok tt) ->
  exists wave' n' m0 y sh l0 lam, q_wave (e2 e') = Some wave' /\ q_mlims (e2 e') = Some n' /\ q_m0 (e2 e') = Some m0 /\ q_ypos (e2 e') = Some y /\
    q_m0_shift (e2 e') = Some sh /\ q_lam0 (e2 e') = Some lam /\ nominal c e l0 /\
    (usable (e2 e') n' -> used (g_fity c) (believed_row (e2 e') n' m0 y) (fun mu => Fin (mu - IZR m0)) (Fin 0) sh /\
      used (g_fitl c) (believed_line wave' l0) Fin l0 lam) /\
    (~ usable (e2 e') n' -> sh = Fin 0 /\ lam = l0).
Proof.
  intros R Ph Al H. destruct (prep_placed _ _ _ _ _ _ _ R Ph Al H) as (wave' & n' & m0 & y & sh & l0 & lam & A).
  exists wave', n', m0, y, sh, l0, lam. tauto.
Qed.

(** Three rows and five wavelengths, both fits believed. *)
Definition ex_sp5 : sp2 := mkSp2 (Some [Fin 10; Fin 11; Fin 12; Fin 13; Fin 14]) None None (Some (ones 3 5)) (Some (ones 3 5)) None None None None None None None
  [] [0; 1; 2; 3; 4]%nat [] None None None None None None None None (Some (Fin 12)) (Some (Fin 1)) (Some 1%Z) (Fin 0) (Fin 9) (Some 3%nat) None None None None false.
Definition ex_env5 : env := mkEnv ex_sp5 None None false (mkCaller (ones 3 5) (ones 3 5) (ones 3 5) [] false false false).
Definition ex_cfg5 (y l : fl) : cfg := mkCfg (Fin 0) false (Fin 2) UpEdges true (Ok tt) (Fin 12) (Err ValueError)
  (Ok (Fin 5, Fin 15)) (Ok (Fin 8, Fin 15)) (Ok (Fin 9, Fin 11)) (fun _ => Fin 1) (fun _ _ _ _ _ => Ok (Fin 0, Fin 0)) (fun _ _ _ _ _ _ _ => Ok (Fin 0))
  (fun _ _ _ _ => Ok (mkVpos 2 (Fin 0) (Fin 5) 1 3)) (fun _ _ _ => (Fin 1, Fin 1, Fin 1)) (Some y) (Some l) (Ok (Fin 0)).
Lemma ex_phys5 : physical [Fin 10; Fin 11; Fin 12; Fin 13; Fin 14].
Proof. intros x [<-|[<-|[<-|[<-|[<-|[]]]]]]; eexists; (split; [reflexivity|lra]). Qed.
Lemma ex_spans5 : spans_wave [Fin 10; Fin 11; Fin 12; Fin 13; Fin 14] 10 14.
Proof. split; [now left|]. split; [do 4 right; now left|]. intros r [E|[E|[E|[E|[E|[]]]]]]; injection E as <-; lra. Qed.
Lemma ex_m0_runs y l : exists e', prep_m0_lam0 (ex_cfg5 y l) ex_env5 = (e', Ok tt).
Proof.
  unfold prep_m0_lam0. rewrite bind_get. cbn [ex_env5 ex_sp5 e2 q_mlims q_flux q_wave q_m0 q_ypos q_lam0 need].
  rewrite (bind_lift _ 3%nat) by reflexivity. rewrite (bind_lift _ (ones 3 5)) by reflexivity. rewrite (bind_lift _ [Fin 10; Fin 11; Fin 12; Fin 13; Fin 14]) by reflexivity.
  rewrite (bind_lift _ 1%Z) by reflexivity. rewrite (bind_lift _ (Fin 1)) by reflexivity. rewrite (bind_lift _ (Fin 12)) by reflexivity.
  change (setdiff_range 3 _) with [0; 1; 2]%nat. change (q_wh_nosky ex_sp5) with [0; 1; 2; 3; 4]%nat. cbv beta zeta match.
  rewrite (bind_lift _ tt) by (unfold lm_bounds, lm_close; rewrite (proj2 (Rleb_false _ _)); [reflexivity|cbn [Nat.sub INR]; rewrite !Rabs_right + idtac; unfold Rabs; repeat destruct Rcase_abs; lra]).
  destruct (fmin1_low [Fin 11; Fin 12; Fin 13; Fin 14] (Fin 10)) as (lo & Elo & I1 & L1); [intros x Hx; destruct (ex_phys5 x Hx) as (r & E & _); eauto|].
  destruct (fmax1_high [Fin 11; Fin 12; Fin 13; Fin 14] (Fin 10)) as (hi & Ehi & I2 & L2); [intros x Hx; destruct (ex_phys5 x Hx) as (r & E & _); eauto|].
  assert (S : spans_wave [Fin 10; Fin 11; Fin 12; Fin 13; Fin 14] lo hi) by (split; [exact I1|]; split; [exact I2|]; auto).
  destruct (spans_unique _ _ _ _ _ S ex_spans5) as [-> ->]. cbn [np_min np_max]. rewrite Elo, Ehi.
  rewrite (bind_lift _ (Fin 10)) by reflexivity. rewrite (bind_lift _ (Fin 14)) by reflexivity.
  rewrite (bind_lift _ tt). { eexists. unfold bindS, up2, modS. reflexivity. }
  unfold fsub. cbn [fneg fadd]. rewrite fdiv_Fin by lra. cbn [fneg fadd]. unfold lm_bounds, lm_close. rewrite (proj2 (Rleb_false _ _)); [reflexivity|].
  unfold Rabs. repeat destruct Rcase_abs; lra.
Qed.
Lemma ex_usable5 : usable ex_sp5 3.
Proof. split; [exists 0%nat; split; [lia|intros []]|discriminate]. Qed.
(** A believed answer is used, a far one is not. *)
Lemma ex_position : (exists e', prep_m0_lam0 (ex_cfg5 (Fin (3 / 2)) (Fin (25 / 2))) ex_env5 = (e', Ok tt) /\ q_m0_shift (e2 e') = Some (Fin (3 / 2 - 1)) /\ q_lam0 (e2 e') = Some (Fin (25 / 2))) /\
  (exists e', prep_m0_lam0 (ex_cfg5 (Fin 5) (Fin 20)) ex_env5 = (e', Ok tt) /\ q_m0_shift (e2 e') = Some (Fin 0) /\ q_lam0 (e2 e') = Some (Fin 12)).
Proof.
  split.
  - destruct (ex_m0_runs (Fin (3 / 2)) (Fin (25 / 2))) as (e' & H). destruct (m0_found _ _ _ _ _ _ _ _ H eq_refl eq_refl ex_phys5 eq_refl eq_refl eq_refl) as (sh & lam & E & U & _).
    exists e'. split; [exact H|]. subst e'. cbn [e2]. destruct (U ex_usable5) as [U1 U2]. split.
    + destruct U1 as [(mu & A & _ & ->)|[_ N]]; [injection A as <-; reflexivity|]. exfalso. apply (N (3 / 2) eq_refl). split; [cbn; lra|]. left. exists 1. split; [reflexivity|]. unfold Rabs. destruct Rcase_abs; lra.
    + destruct U2 as [(mu & A & _ & ->)|[_ N]]; [injection A as <-; reflexivity|]. exfalso. apply (N (25 / 2) eq_refl). exists 10, 14, 12. split; [exact ex_spans5|]. split; [reflexivity|]. split; [lra|]. unfold Rabs. destruct Rcase_abs; lra.
  - destruct (ex_m0_runs (Fin 5) (Fin 20)) as (e' & H). destruct (m0_found _ _ _ _ _ _ _ _ H eq_refl eq_refl ex_phys5 eq_refl eq_refl eq_refl) as (sh & lam & E & U & _).
    exists e'. split; [exact H|]. subst e'. cbn [e2]. destruct (U ex_usable5) as [U1 U2]. split.
    + destruct U1 as [(mu & A & [B _] & _)|[-> _]]; [|reflexivity]. injection A as <-. cbn in B. lra.
    + destruct U2 as [(mu & A & (lo & hi & l & S & _ & B & _) & _)|[-> _]]; [|reflexivity]. injection A as <-. destruct (spans_unique _ _ _ _ _ S ex_spans5) as [-> ->]. lra.
Qed.
