(* Proofs about fit preparation: the trims, masks and weights, and the whole. *)
From Coq Require Import Reals List Bool Arith ZArith Lra Lia Sorted.
From Verif Require Import PyFloat PyBase Arr PyNum PAper2D MMask SMask PMask PMask2 MTrim STrim PTrim PTrim2 MPrep SPrep PPrep PPrep2.
Import ListNotations.
Local Open Scope R_scope.

(** Fields neither trim nor masks touch. *)
Definition kept_fields (s s' : sp2) : Prop :=
  q_ypos s' = q_ypos s /\ q_cutoff s' = q_cutoff s /\ q_lam0 s' = q_lam0 s /\ q_median s' = q_median s /\ q_prepared s' = q_prepared s.

(** The 2-D spectrum after a trim that keeps something. *)
Definition trimmed (z : fl) (r o : fl * fl) (w' : list fl) (ks : list nat) (fx er m w ic ct : arr2 fl) (s : sp2) : sp2 :=
  set_q_rest (Some (rest_of z w')) (set_q_obs (Some w') (set_q_cont (Some (trim_cols ks ct)) (set_q_incl (Some (trim_cols ks ic))
     (set_q_weight (Some (trim_cols ks w)) (set_q_mask (Some (trim_cols ks m)) (set_q_err (Some (trim_cols ks er))
      (set_q_flux (Some (trim_cols ks fx)) (set_q_wave (Some w') (set_q_trimr (Some r) (set_q_trimo (Some o) s)))))))))).
Lemma trimmed_kept z r o w' ks fx er m w ic ct s : kept_fields s (trimmed z r o w' ks fx er m w ic ct s) /\ q_qual (trimmed z r o w' ks fx er m w ic ct s) = q_qual s.
Proof. repeat split; reflexivity. Qed.
Lemma trimmed_inv Z z r o wave ks fx er m w ic ct n s : inv Z s wave fx er m w ic ct n -> (forall k, In k ks -> (k < length wave)%nat) ->
  inv Z (trimmed z r o (map (fun k => nth k wave NaN) ks) ks fx er m w ic ct s) (map (fun k => nth k wave NaN) ks)
   (trim_cols ks fx) (trim_cols ks er) (trim_cols ks m) (trim_cols ks w) (trim_cols ks ic) (trim_cols ks ct) n.
Proof.
  intros ((_ & _ & _ & _ & _ & _ & S1 & S2 & S3 & S4) & Rn & _ & _ & S5 & S6 & P) B.
  unfold inv, arrays2. change (rows (trim_cols ks fx)) with (rows fx). rewrite Rn in *. rewrite map_length.
  split; [|split; [reflexivity|split; [reflexivity|split; [reflexivity|split; [now apply shape_cols with (length wave)|split; [now apply shape_cols with (length wave)|now apply pix_cols with (length wave)]]]]]].
  do 6 (split; [reflexivity|]). split; [now apply shape_cols with (length wave)|]. split; [now apply shape_cols with (length wave)|].
  split; now apply shape_cols with (length wave).
Qed.
Lemma prep_trim_run c rl s t d r k wave fx er m w ic ct n ks Z : inv Z s wave fx er m w ic ct n -> q_rline s = Some rl ->
  kept (to_obs (g_z c) rl) wave ks -> ks <> [] ->
  prep_trim c (mkEnv s t d r k) = (mkEnv (trimmed (g_z c) rl (to_obs (g_z c) rl) (map (fun k => nth k wave NaN) ks) ks fx er m w ic ct s) t d r k, Ok tt).
Proof.
  intros (A & Rn & Hi & Hc & S5 & S6 & P) El K Ke.
  assert (T : trim_range_2D (g_z c) (Some rl) None true (g_fline c) = Ok (rl, to_obs (g_z c) rl)) by reflexivity.
  assert (B : forall k, In k ks -> (k < length wave)%nat) by (intros; eapply kept_bound; eassumption).
  assert (Tp : trim_pair ks s = (Some (trim_cols ks ic), Some (trim_cols ks ct))).
  { apply trim_pair_picked; auto; intros k0 Hk; apply B in Hk; [rewrite (proj2 S5)|rewrite (proj2 S6)]; exact Hk. }
  unfold prep_trim. change (e2 (mkEnv s t d r k)) with s. rewrite El.
  rewrite (trim_2D_run _ _ _ _ _ _ _ _ _ _ _ _ _ _ A T K Ke). rewrite Tp. reflexivity.
Qed.
Lemma prep_trim_none c rl s t d r k wave fx er m w : arrays2 s wave fx er m w -> q_rline s = Some rl ->
  kept (to_obs (g_z c) rl) wave [] -> exists s', prep_trim c (mkEnv s t d r k) = (mkEnv s' t d r k, Ok tt) /\ q_mask s' = None /\ q_qual s' = q_qual s.
Proof.
  intros A El K. unfold prep_trim. change (e2 (mkEnv s t d r k)) with s. rewrite El.
  unfold trim_2D_inplace. assert (T : trim_range_2D (g_z c) (Some rl) None true (g_fline c) = Ok (rl, to_obs (g_z c) rl)) by reflexivity.
  rewrite (bind_lift _ _ _ _ T), bind_mod, bind_mod, bind_get. cbn [fst snd].
  destruct A as (_ & O & _). change (q_obs (set_q_trimr (Some rl) (set_q_trimo (Some (to_obs (g_z c) rl)) s))) with (q_obs s).
  rewrite O. rewrite (bind_lift _ wave) by reflexivity. cbv beta zeta. rewrite (kept_unique _ _ _ K). rewrite !bind_mod.
  eexists. split; [reflexivity|]. split; reflexivity.
Qed.

Lemma sky_inv Z c e e' wave fx er m w ic ct n : inv Z (e2 e) wave fx er m w ic ct n -> q_qual (e2 e) = None ->
  prep_sky c e = (e', Ok tt) ->
  exists sk, inv Z (e2 e') wave fx er m w ic ct n /\
    q_qual (e2 e') = Some m /\ q_sky (e2 e') = Some sk /\ shape sk n (length wave) /\ kept_fields (e2 e) (e2 e') /\
    e1 e' = e1 e /\ e_dpa e' = e_dpa e /\ e_k e' = e_k e.
Proof.
  intros ((W & O & F & E & M & G & S1 & S2 & S3 & S4) & Rn & Hi & Hc & S5 & S6 & P) Q H.
  destruct e as [s t d r k]. cbn [e2 e1 e_dpa e_reg e_k] in *.
  unfold prep_sky in H. rewrite bind_get in H. cbn [e2] in H. rewrite Q, M in H.
  erewrite bind_ok in H; [|rewrite (bind_lift _ m) by reflexivity; apply up2_eq]. rewrite bind_get in H. cbn [e2 e1 e_dpa e_reg e_k] in H. cbv zeta in H.
  change (q_qual (set_q_qual (Some m) s)) with (Some m) in H. rewrite (bind_lift _ m) in H by reflexivity.
  change (q_flux (set_q_qual (Some m) s)) with (q_flux s) in H. change (q_err (set_q_qual (Some m) s)) with (q_err s) in H.
  rewrite F, E in H. rewrite (bind_lift _ fx) in H by reflexivity. rewrite (bind_lift _ er) in H by reflexivity.
  liftin H. rename a into cut. liftin H. destruct a as [[sk sky] nosky]. cbn [fst snd] in H. rewrite !bu2 in H. rewrite up2_eq in H. cbn [e2 e1 e_dpa e_reg e_k] in H. injection H as <-.
  cbn [e2 e1 e_dpa e_reg e_k]. exists sk.
  destruct (snd cut) eqn:Uc; [|unfold mask_skylines_2D in E1; discriminate].
  apply sky_partition in E1; [|now rewrite (proj2 S1), (proj2 S2)]. destruct E1 as (_ & _ & _ & _ & Rs & Cs & _).
  split.
  { split; [|split; [exact Rn|split; [exact Hi|split; [exact Hc|split; [exact S5|split; [exact S6|exact P]]]]]].
    do 5 (split; [assumption|]). split; [exact G|]. split; [exact S1|]. split; [exact S2|]. split; [exact S3|exact S4]. }
  split; [reflexivity|]. split; [reflexivity|]. split; [rewrite Rn in S3; split; [rewrite Rs|rewrite Cs]; apply S3|].
  repeat split; reflexivity.
Qed.

Lemma trim_sky_inv Z c e e' wave fx er m w ic ct n rl : inv Z (e2 e) wave fx er m w ic ct n -> q_rline (e2 e) = Some rl -> q_qual (e2 e) = None ->
  bindS (prep_trim c) (fun _ => prep_sky c) e = (e', Ok tt) ->
  exists ks sk, let wave' := map (fun k => nth k wave NaN) ks in ks <> [] /\ kept (to_obs (g_z c) rl) wave ks /\ (forall k, In k ks -> (k < length wave)%nat) /\
    inv Z (e2 e') wave' (trim_cols ks fx) (trim_cols ks er) (trim_cols ks m) (trim_cols ks w) (trim_cols ks ic) (trim_cols ks ct) n /\
    q_qual (e2 e') = Some (trim_cols ks m) /\ q_sky (e2 e') = Some sk /\ shape sk n (length wave') /\ kept_fields (e2 e) (e2 e') /\
    e1 e' = e1 e /\ e_dpa e' = e_dpa e /\ e_k e' = e_k e.
Proof.
  intros I El Q H. apply bind_inv in H. destruct H as (ea & [] & H1 & H). destruct e as [s t d r k]. cbn [e2 e1 e_dpa e_reg e_k] in *.
  assert (K := kept_where (to_obs (g_z c) rl) wave). set (ks := where_ (within (to_obs (g_z c) rl)) wave) in *. clearbody ks.
  destruct (list_eq_dec Nat.eq_dec ks []) as [Ke|Ke].
  - exfalso. subst ks. destruct (prep_trim_none c rl s t d r k wave fx er m w) as (s' & Ht & Mn & Qn); [apply I|exact El|exact K|].
    rewrite Ht in H1. injection H1 as <-. rewrite Q in Qn. unfold prep_sky in H. rewrite bind_get in H. cbn [e2] in H. rewrite Qn, Mn in H. discriminate.
  - assert (B : forall k, In k ks -> (k < length wave)%nat) by (intros; eapply kept_bound; eassumption).
    rewrite (prep_trim_run c rl s t d r k wave fx er m w ic ct n ks Z I El K Ke) in H1. injection H1 as <-.
    assert (I2 := trimmed_inv Z (g_z c) rl (to_obs (g_z c) rl) wave ks fx er m w ic ct n s I B).
    destruct (trimmed_kept (g_z c) rl (to_obs (g_z c) rl) (map (fun k => nth k wave NaN) ks) ks fx er m w ic ct s) as [(K1 & K2 & K3 & K4 & K5) Q2].
    revert H I2 K1 K2 K3 K4 K5 Q2. generalize (trimmed (g_z c) rl (to_obs (g_z c) rl) (map (fun k => nth k wave NaN) ks) ks fx er m w ic ct s). intros s1 H I2 K1 K2 K3 K4 K5 Q2.
    rewrite Q in Q2.
    destruct (sky_inv Z c (mkEnv s1 t d r k) e' _ _ _ _ _ _ _ _ I2 Q2 H) as (sk & I3 & Q3 & Sk & Ss & (J1 & J2 & J3 & J4 & J5) & J6 & J7 & J8).
    cbn [e2 e1 e_dpa e_reg e_k] in *. exists ks, sk. cbv zeta. split; [exact Ke|]. split; [exact K|]. split; [exact B|]. split; [exact I3|]. split; [exact Q3|]. split; [exact Sk|]. split; [exact Ss|].
    split; [repeat split; congruence|]. auto.
Qed.

Lemma low_inv Z c e e' wave fx er m w ic ct n ql sk : inv Z (e2 e) wave fx er m w ic ct n ->
  q_qual (e2 e) = Some ql -> shape ql n (length wave) -> q_sky (e2 e) = Some sk -> shape sk n (length wave) ->
  prep_low c e = (e', Ok tt) ->
  exists m' lw, inv Z (e2 e') wave fx er m' w ic ct n /\ ready (e2 e') n (length wave) [fx; er; ic; ct; w; m'; ql; sk; lw] /\
    kept_fields (e2 e) (e2 e') /\ e1 e' = e1 e /\ e_dpa e' = e_dpa e /\ e_k e' = e_k e /\
    (forall i, In i (q_low_inds (e2 e')) -> (i < n)%nat).
Proof.
  intros ((W & O & F & E & M & G & S1 & S2 & S3 & S4) & Rn & Hi & Hc & S5 & S6 & P) Q Sq K Sk H.
  destruct e as [s t d r k]. cbn [e2 e1 e_dpa e_reg e_k] in *.
  unfold prep_low in H. rewrite bind_get in H. cbn [e2 e1 e_dpa e_reg e_k] in H. cbv zeta in H. rewrite Q, F, E, K, M in H.
  rewrite (bind_lift _ ql) in H by reflexivity. rewrite (bind_lift _ fx) in H by reflexivity. rewrite (bind_lift _ er) in H by reflexivity.
  rewrite (bind_lift _ sk) in H by reflexivity. liftin H. destruct a as [lw low]. cbn [fst snd] in H. rewrite !bu2 in H.
  rewrite (bind_lift _ m) in H by reflexivity. liftin H. rename a into m'. rewrite up2_eq in H. injection H as <-. cbn [e2 e1 e_dpa e_reg e_k].
  apply mask_rows_spec in E0. destruct E0 as (_ & Rl & Cl & Lo & _).
  assert (Sl : shape lw n (length wave)) by (destruct Sq; split; congruence).
  rewrite Rn in *. rewrite (times2_ok m lw n (length wave) S3 Sl) in E1. injection E1 as <-.
  set (m' := mk2 n (length wave) _). exists m', lw.
  split.
  { split; [|split; [exact Rn|split; [exact Hi|split; [exact Hc|split; [exact S5|split; [exact S6|exact P]]]]]].
    rewrite <- Rn in *. do 4 (split; [assumption|]). split; [reflexivity|]. split; [exact G|]. split; [exact S1|]. split; [exact S2|]. split; [split; [exact (eq_sym Rn)|reflexivity]|exact S4]. }
  split.
  { split.
    - change (map Some [fx; er; ic; ct; w; m'; ql; sk; lw] = [q_flux s; q_err s; q_incl s; q_cont s; q_weight s; Some m'; q_qual s; q_sky s; Some lw]).
      rewrite F, E, Hi, Hc, G, Q, K. reflexivity.
    - intros a Ha. cbn [In] in Ha. repeat (destruct Ha as [<-|Ha]; [assumption || (split; reflexivity)|]). destruct Ha. }
  split; [repeat split; reflexivity|]. split; [reflexivity|]. split; [reflexivity|]. split; [reflexivity|].
  intros i Hl. destruct Sq as [Sq _]. rewrite Sq in Lo. now apply Lo.
Qed.

Lemma pix_rows Z fx er ic ct n p l r : rows fx = n -> rows er = n -> rows ic = n -> rows ct = n -> pix Z fx er ic ct n p ->
  pix Z (slice_rows fx l r) (slice_rows er l r) (slice_rows ic l r) (slice_rows ct l r) (rows (slice_rows fx l r)) p.
Proof.
  intros H1 H2 H3 H4 P i j Hi Hj. unfold slice_rows in *. cbn [rows at2] in *. rewrite H1, H2, H3, H4. rewrite H1 in Hi.
  apply P; [|exact Hj]. assert (slice_bound n r <= n)%nat; [|lia]. unfold slice_bound. destruct (Z.ltb_spec r 0); lia.
Qed.
Lemma line_rows a wave ct n l r : rows ct = n -> (forall i, (i < n)%nat -> line_row a wave ct i) ->
  forall i, (i < rows (slice_rows ct l r))%nat -> line_row a wave (slice_rows ct l r) i.
Proof.
  intros H1 H i Hi. unfold slice_rows in *. cbn [rows] in Hi. rewrite H1 in Hi.
  destruct (H (slice_bound n l + i)%nat) as (b & Hb).
  { assert (slice_bound n r <= n)%nat; [|lia]. unfold slice_bound. destruct (Z.ltb_spec r 0); lia. }
  exists b. intros j Hj. cbn [at2]. rewrite H1. auto.
Qed.

Lemma spatial_inv Z c e e' wave fx er m w ic ct n a ql sk lw : inv Z (e2 e) wave fx er m w ic ct n ->
  ready (e2 e) n (length wave) [fx; er; ic; ct; w; m; ql; sk; lw] -> (forall i, (i < n)%nat -> line_row a wave ct i) ->
  prep_spatial c e = (e', Ok tt) ->
  exists n' fx' er' m' w' ic' ct' ql' sk' lw' y0 (v : vpos),
    inv Z (e2 e') wave fx' er' m' w' ic' ct' n' /\ ready (e2 e') n' (length wave) [fx'; er'; ic'; ct'; w'; m'; ql'; sk'; lw'] /\
    (forall i, (i < n')%nat -> line_row a wave ct' i) /\
    q_ypos (e2 e) = Some y0 /\ q_ypos (e2 e') <> None /\ q_m0 (e2 e') <> None /\ q_mlims (e2 e') = Some n' /\ q_lam0 (e2 e') = q_lam0 (e2 e) /\
    (forall i, In i (q_low_inds (e2 e')) -> (i < n')%nat) /\ q_prepared (e2 e') = q_prepared (e2 e) /\
    e_dpa e' = e_dpa e /\ e_k e' = e_k e /\
    n' = rows (slice_rows fx (low_ind (g_dither c) v) (high_ind (g_dither c) n v)) /\
    g_vert c (mk2 n (length wave) (fun i j => fmul (at2 fx i j) (at2 sk i j))) (mk2 n (length wave) (fun i j => fmul (at2 er i j) (at2 sk i j))) wave (Some y0) = Ok v.
Proof.
  intros I R L H. destruct e as [s t d r k]. cbn [e2 e1 e_dpa e_reg e_k] in *. unfold prep_spatial in H. cbn [e2 e1 e_dpa e_reg e_k] in H.
  destruct I as ((W & O & F & E & M & G & S1 & S2 & S3 & S4) & Rn & Hi & Hc & S5 & S6 & P).
  assert (K : q_sky s = Some sk). { destruct R as [R _]. cbn [map] in R. congruence. }
  assert (Sk : shape sk n (length wave)) by (apply R; cbn; tauto).
  rewrite Rn in *.
  destruct (g_vert c (mk2 n (length wave) (fun i j => fmul (at2 fx i j) (at2 sk i j))) (mk2 n (length wave) (fun i j => fmul (at2 er i j) (at2 sk i j))) wave (q_ypos s)) as [v|x] eqn:V.
  2:{ exfalso. unfold trim_2D_spatial in H. rewrite bind_get in H. cbn [fst snd] in H. rewrite F, K, E, O in H.
      rewrite (bind_lift _ fx) in H by reflexivity. rewrite (bind_lift _ sk) in H by reflexivity.
      rewrite (bind_lift _ _ _ _ (times2_ok fx sk _ _ S1 Sk)) in H. rewrite (bind_lift _ er) in H by reflexivity.
      rewrite (bind_lift _ _ _ _ (times2_ok er sk _ _ S2 Sk)) in H. rewrite (bind_lift _ wave) in H by reflexivity. rewrite V in H. discriminate. }
  destruct (spatial_run_gen (g_dither c) (g_cut c) (g_vert c) s t n (length wave) fx er ic ct w m ql sk lw wave v R O V) as (low & Lw & Run).
  rewrite Run in H. clear Run. set (l := low_ind (g_dither c) v) in *. set (h := high_ind (g_dither c) n v) in *.
  destruct (q_ypos s) as [y|] eqn:Y; [|discriminate]. rewrite (bind_lift _ y) in H by reflexivity. unfold modS in H. cbn [fst snd] in H.
  injection H as <-. cbn [e2 e1 e_dpa e_reg e_k].
  set (n' := rows (slice_rows fx l h)).
  assert (Sh : forall b, shape b n (length wave) -> shape (slice_rows b l h) n' (length wave)).
  { intros b [B1 B2]. split; [|rewrite slice_rows_cols; exact B2]. unfold n'. apply slice_rows_rows. now rewrite B1. }
  exists n', (slice_rows fx l h), (slice_rows er l h), (slice_rows m l h), (slice_rows w l h), (slice_rows ic l h), (slice_rows ct l h), (slice_rows ql l h), (slice_rows sk l h), (slice_rows lw l h), y, v.
  split.
  { split; [|split; [reflexivity|split; [reflexivity|split; [reflexivity|split; [now apply Sh|split; [now apply Sh|]]]]]].
    - split; [exact W|]. split; [exact O|]. do 4 (split; [reflexivity|]). fold n'. split; [now apply Sh|]. split; [now apply Sh|]. split; now apply Sh.
    - apply pix_rows with n; auto; [apply S2|apply S5|apply S6]. }
  split. { split; [reflexivity|]. destruct R as [_ R]. intros b Hb. 
    change [slice_rows fx l h; slice_rows er l h; slice_rows ic l h; slice_rows ct l h; slice_rows w l h; slice_rows m l h; slice_rows ql l h; slice_rows sk l h; slice_rows lw l h]
      with (map (fun a => slice_rows a l h) [fx; er; ic; ct; w; m; ql; sk; lw]) in Hb.
    apply in_map_iff in Hb. destruct Hb as (b0 & <- & Hb). apply Sh, R, Hb. }
  split. { intros i Hn. apply line_rows with n; [apply S6|exact L|]. rewrite (slice_rows_rows ct fx) by (rewrite (proj1 S6), Rn; reflexivity). exact Hn. }
  split; [reflexivity|]. split; [discriminate|]. split; [discriminate|]. split; [reflexivity|]. split; [reflexivity|].
  split. { intros i Hl. change (In i low) in Hl. rewrite Lw in Hl. apply low_rows_sorted in Hl. rewrite row_snr_length in Hl. exact Hl. }
  split; [reflexivity|]. split; [reflexivity|]. split; [reflexivity|]. split; [reflexivity|]. exact V.
Qed.

Lemma fit_weights_shape t fx er sk low f3 prof M : fit_weights t fx er sk low f3 = Ok (prof, M) ->
  length prof = rows fx /\ shape M (rows fx) (cols fx).
Proof.
  unfold fit_weights. intros H. 
  assert (X : exists w, length w = rows fx /\ prof = (if feqb (fsum w) (Fin 0) then map (fun _ => Fin 0) w else map (fun x => fdiv x (fsum w)) w) /\ M = mk2 (length prof) (cols fx) (fun i _ => lnth prof i)).
  { destruct t; cbn [bind] in H.
    - destruct (negb _); [discriminate|]. cbn [bind] in H. injection H as <- <-. eexists. split; [|split; [reflexivity|reflexivity]].
      rewrite set_inds_length, map_length. apply row_snr_length.
    - injection H as <- <-. eexists. split; [|split; [reflexivity|reflexivity]]. now rewrite map_length, seq_length.
    - destruct f3 as [[A mu] sg]. destruct (negb _); [discriminate|]. cbn [bind] in H. injection H as <- <-. eexists. split; [|split; [reflexivity|reflexivity]].
      now rewrite set_inds_length, map_length, seq_length.
    - discriminate. }
  destruct X as (w & Lw & Ep & ->). assert (Lp : length prof = rows fx) by (rewrite Ep; destruct (feqb _ _); rewrite map_length; exact Lw).
  split; [exact Lp|]. split; [exact Lp|reflexivity].
Qed.

(** The last three steps. *)
Definition prep_end (c : cfg) : ST env unit :=
  sdo _ <- prep_weights c; sdo _ <- prep_dpa c; sdo _ <- prep_m0_lam0 c; up2 (set_q_prepared true).

Lemma weights_inv c e e' fx : q_flux (e2 e) = Some fx -> prep_weights c e = (e', Ok tt) ->
  exists p M, e' = mkEnv (set_q_wmat (Some M) (set_q_wprof (Some p) (e2 e))) (e1 e) (e_dpa e) (e_reg e) (e_k e) /\ length p = rows fx /\ shape M (rows fx) (cols fx).
Proof.
  intros F H. destruct e as [s t d r k]. cbn [e2 e1 e_dpa e_reg e_k] in *. unfold prep_weights in H. rewrite bind_get in H. cbn [e2] in H. cbv zeta in H. rewrite F in H.
  rewrite (bind_lift _ fx) in H by reflexivity. do 3 liftin H. liftin H. destruct a2 as [p M]. cbn [fst snd] in H. rewrite bu2, up2_eq in H. injection H as <-.
  exists p, M. split; [reflexivity|]. eapply fit_weights_shape; eassumption.
Qed.
Lemma dpa_inv c e e' : prep_dpa c e = (e', Ok tt) -> exists d, e' = mkEnv (e2 e) (e1 e) (Some d) (e_reg e) (e_k e) /\ (e_dpa e = Some d \/ (e_dpa e = None /\ g_dpa c = Ok d)).
Proof.
  intros H. destruct e as [s t d r k]. unfold prep_dpa in H. rewrite bind_get in H. cbn [e2 e1 e_dpa e_reg e_k] in *.
  destruct d as [d|].
  - injection H as <-. exists d. auto.
  - liftin H. unfold modS in H. injection H as <-. exists a. auto.
Qed.
Lemma m0_inv c e e' : prep_m0_lam0 c e = (e', Ok tt) -> exists sh l0, e' = mkEnv (set_q_lam0 (Some l0) (set_q_m0_shift (Some sh) (e2 e))) (e1 e) (e_dpa e) (e_reg e) (e_k e).
Proof.
  intros H. destruct e as [s t d r k]. unfold prep_m0_lam0 in H. rewrite bind_get in H. cbn [e2 e1 e_dpa e_reg e_k] in *. cbv zeta in H. do 6 liftin H.
  assert (X : forall a b st st', bindS (up2 (set_q_m0_shift (Some a))) (fun _ => up2 (set_q_lam0 (Some b))) st = (st', Ok tt) ->
    st' = mkEnv (set_q_lam0 (Some b) (set_q_m0_shift (Some a) (e2 st))) (e1 st) (e_dpa st) (e_reg st) (e_k st)).
  { intros a' b st st' K. injection K as <-. reflexivity. }
  destruct (setdiff_range a (q_low_inds s)).
  - apply X in H. subst e'. eauto.
  - destruct (q_wh_nosky s).
    + apply X in H. subst e'. eauto.
    + do 3 liftin H. cbv zeta in H. liftin H. apply X in H. subst e'. eauto.
Qed.

Lemma end_inv Z c e e' wave fx er m w ic ct n ql sk lw : inv Z (e2 e) wave fx er m w ic ct n -> ready (e2 e) n (length wave) [fx; er; ic; ct; w; m; ql; sk; lw] ->
  q_m0 (e2 e) <> None -> q_ypos (e2 e) <> None -> q_mlims (e2 e) = Some n -> prep_end c e = (e', Ok tt) ->
  consistent (e2 e') wave n [fx; er; ic; ct; w; m; ql; sk; lw] /\ q_prepared (e2 e') = true /\ e_dpa e' <> None /\ e_k e' = e_k e /\ e1 e' = e1 e.
Proof.
  intros ((W & O & F & E & M & G & S1 & S2 & S3 & S4) & Rn & Hi & Hc & S5 & S6 & P) R N1 N2 N3 H.
  unfold prep_end in H. apply bind_inv in H. destruct H as (ea & [] & H1 & H). apply bind_inv in H. destruct H as (eb & [] & H2 & H). apply bind_inv in H. destruct H as (ed & [] & H3 & H).
  rewrite up2_eq in H. injection H as <-.
  destruct (weights_inv _ _ _ _ F H1) as (p & Mt & -> & Lp & Sm). clear H1. destruct (dpa_inv _ _ _ H2) as (d & -> & _). clear H2.
  destruct (m0_inv _ _ _ H3) as (sh & l0 & ->). clear H3. cbn [e2 e1 e_dpa e_reg e_k].
  rewrite Rn in *. rewrite (proj2 S1) in Sm.
  split; [|split; [reflexivity|split; [discriminate|split; reflexivity]]].
  split; [exact W|]. split; [exact O|]. split; [exact R|]. split; [exists Mt; split; [reflexivity|exact Sm]|]. split; [exists p; split; [reflexivity|exact Lp]|].
  split; [exact N3|]. split; [exact N1|]. split; [exact N2|]. split; discriminate.
Qed.

(** Preparation cut into its parts. *)
Lemma body_parts c e : prep_body c e = bindS (prep_start c) (fun _ => bindS (subtract_continuum c) (fun _ => bindS (bindS (prep_trim c) (fun _ => prep_sky c))
  (fun _ => bindS (prep_low c) (fun _ => bindS (prep_spatial c) (fun _ => prep_end c))))) e.
Proof.
  unfold prep_body, prep_start, prep_end, bindS.
  repeat match goal with |- context [match ?x with (_, _) => _ end] =>
    lazymatch x with context [match _ with _ => _ end] => fail | _ => destruct x as [? [?|?]]; [|reflexivity] end end; reflexivity.
Qed.

Lemma inv_pix Z s wave fx er m w ic ct n : inv Z s wave fx er m w ic ct n -> pix Z fx er ic ct n (length wave).
Proof. intros (_ & _ & _ & _ & _ & _ & P). exact P. Qed.

Lemma picked_In o wave ks : kept o wave ks -> forall x, In x (map (fun k => nth k wave NaN) ks) <-> In x wave /\ inside o x.
Proof.
  intros K x. rewrite in_map_iff. split.
  - intros (k & <- & Hk). assert (B := kept_bound _ _ _ _ K Hk). destruct K as [_ K]. apply K in Hk. destruct Hk as (y & E & I).
    rewrite (nth_error_nth _ _ _ E). split; [now apply nth_error_In in E|exact I].
  - intros [I J]. apply In_nth_error in I. destruct I as (k & E). exists k. split; [now apply nth_error_nth|]. destruct K as [_ K]. apply K. eauto.
Qed.

Lemma prep_facts c e e' wave fx er n : raw (e2 e) wave fx er n -> physical wave ->
  (k_a2 (e_k e) = true -> k_flux (e_k e) = fx /\ k_err (e_k e) = er) -> fit_prep c e = (e', Ok tt) ->
  exists wave' n' fx' er' m' w' ic ct ql sk lw a rf rl,
    consistent (e2 e') wave' n' [fx'; er'; ic; ct; w'; m'; ql; sk; lw] /\
    pix (noz fx er (the_mask (q_mask (e2 e)) fx) (the_mask (q_weight (e2 e)) fx) n (length wave)) fx' er' ic ct n' (length wave') /\
    (forall i, (i < n')%nat -> line_row a wave' ct i) /\ get_range (q_rfull (e2 e)) (g_ffull c) = Ok rf /\ get_range (q_rline (e2 e)) (g_fline c) = Ok rl /\
    (forall x, In x wave' <-> In x wave /\ inside (to_obs (g_z c) rf) x /\ inside (to_obs (g_z c) rl) x) /\ wave' <> [] /\
    q_prepared (e2 e') = true /\ e_reg e' = true /\ e_dpa e' <> None /\
    (k_a2 (e_k e) = true -> shape (k_flux (e_k e')) n (length wave) /\ shape (k_err (e_k e')) n (length wave) /\
      forall i j, (i < n)%nat -> (j < length wave)%nat -> isfinite (at2 (k_flux (e_k e')) i j) = true /\ isfinite (at2 (k_err (e_k e')) i j) = true /\
        (g_nocont c = true -> isfinite (at2 fx i j) = true -> at2 (k_flux (e_k e')) i j = at2 fx i j)).
Proof.
  intros R Ph Al H. unfold fit_prep in H. rewrite bind_get in H.
  assert (Np : q_prepared (e2 e) = false) by apply R. rewrite Np in H.
  apply bind_inv in H. destruct H as (eb & [] & H & H2). unfold modS in H2. injection H2 as <-. cbn [e2 e1 e_dpa e_reg e_k].
  rewrite body_parts in H. apply bind_inv in H. destruct H as (e1' & [] & H1 & H).
  destruct (start_inv _ _ _ _ _ _ _ R H1) as (m & w & A & Rn & Em & Ew & Q & Y & L0 & Pr & One & Kk & Rfl & Rli & _). clear H1.
  apply bind_inv in H. destruct H as (e2' & [] & H1 & H).
  rewrite <- Kk in Al.
  destruct (subtract_inv _ _ _ _ _ _ _ _ _ A Rn Ph Al H1) as (wb & fb & rb & mb & wtb & ic & ct & a & ks & rf & rl & I & N1 & Phb & Ewb & Grf & Kf & Grl & Lb & Qb & Yb & Rb & _ & L0b & Prb & _ & _ & Ka & Kb).
  clear H1. apply bind_inv in H. destruct H as (e3' & [] & H1 & H).
  destruct (trim_sky_inv _ _ _ _ _ _ _ _ _ _ _ _ _ I Rb (eq_trans Qb Q) H1) as (ks2 & sk & Nk & Kl & Bk & I3 & Q3 & Sk & Ss & KF & O3 & D3 & K3). clear H1.
  set (wc := map (fun k => nth k wb NaN) ks2) in *.
  apply bind_inv in H. destruct H as (e4' & [] & H1 & H).
  assert (S3q : shape (trim_cols ks2 mb) n (length wc)). { destruct I3 as ((_ & _ & _ & _ & _ & _ & _ & _ & X & _) & Rx & _). rewrite Rx in X. exact X. }
  destruct (low_inv _ _ _ _ _ _ _ _ _ _ _ _ _ _ I3 Q3 S3q Sk Ss H1) as (m4 & lw & I4 & R4 & KF4 & O4 & D4 & K4 & _). clear H1.
  apply bind_inv in H. destruct H as (e5' & [] & H1 & H).
  assert (L4 : forall i, (i < n)%nat -> line_row a wc (trim_cols ks2 ct) i) by (intros i Hi; apply line_cols; auto).
  destruct (spatial_inv _ _ _ _ _ _ _ _ _ _ _ _ a _ _ _ I4 R4 L4 H1) as (n' & f5 & r5 & m5 & w5 & i5 & c5 & q5 & s5 & l5 & y5 & v & I5 & R5 & L5 & _ & Y5 & M5 & N5 & _ & _ & _ & D5 & K5 & _). clear H1.
  destruct (end_inv _ _ _ _ _ _ _ _ _ _ _ _ _ _ _ I5 R5 M5 Y5 N5 H) as (Co & Pp & Dp & K6 & _).
  exists wc, n', f5, r5, m5, w5, i5, c5, q5, s5, l5, a, rf, rl. split; [exact Co|]. split.
  { rewrite <- Em, <- Ew. exact (inv_pix _ _ _ _ _ _ _ _ _ _ I5). }
  split; [exact L5|]. split; [now rewrite <- Rfl|]. split; [now rewrite <- Rli|]. split.
  { intros x. assert (P1 := picked_In _ _ _ Kl x). assert (P2 := picked_In _ _ _ Kf x). fold wc in P1. rewrite <- Ewb in P2. rewrite P1, P2. tauto. }
  split. { unfold wc. destruct ks2; [congruence|discriminate]. }
  split; [exact Pp|]. split; [reflexivity|]. split; [exact Dp|].
  rewrite Kk in Kb. rewrite K6, K5, K4, K3. exact Kb.
Qed.

Lemma prep_again c e e' : fit_prep c e = (e', Ok tt) -> forall c', fit_prep c' e' = (e', Ok tt).
Proof.
  intros H c'. assert (P : q_prepared (e2 e') = true /\ e_reg e' = true).
  { unfold fit_prep in H. rewrite bind_get in H. apply bind_inv in H. destruct H as (eb & [] & H & H2). unfold modS in H2. injection H2 as <-.
    split; [|reflexivity]. cbn [e2]. destruct (q_prepared (e2 e)) eqn:P; [injection H as <-; exact P|].
    rewrite body_parts in H. do 5 (apply bind_inv in H; destruct H as (? & [] & _ & H)). unfold prep_end in H.
    do 3 (apply bind_inv in H; destruct H as (? & [] & _ & H)). rewrite up2_eq in H. injection H as <-. reflexivity. }
  destruct P as [P1 P2]. unfold fit_prep. rewrite bind_get, P1, bind_ret. unfold modS. destruct e' as [s t d r k]. cbn [e2 e1 e_dpa e_reg e_k] in *. now subst r.
Qed.
