(* Proofs about the analysis of a chain: derived columns, repetition, summaries, linked groups. *)
From Coq Require Import String Reals List Bool Arith ZArith Lra Lia Sorted Permutation.
From Verif Require Import PyFloat PyBase Arr PyNum MParams SParams PParams MProf MPost SPost PPost.
Import ListNotations.
Local Open Scope R_scope.

Lemma theta_chain_spec flat : forall theta vary j tc, theta_chain theta vary flat j = Ok tc ->
  length tc = length theta /\
  forall i, (i < length theta)%nat -> exists b g, nth_error vary i = Some b /\ nth_error tc i = Some g /\
    if b then (j + rank vary i < cols flat)%nat /\ (forall k, g k = at2 flat k (j + rank vary i))
    else exists x, nth_error theta i = Some x /\ forall k, g k = x.
Proof.
  induction theta as [|x theta IH]; intros vary j tc E.
  - cbn in E. destruct vary; injection E as <-; split; auto; cbn; intros; lia.
  - destruct vary as [|[] vary]; cbn [theta_chain] in E; [discriminate| |].
    + destruct (Nat.ltb_spec j (cols flat)) as [L|L]; [|discriminate].
      destruct (theta_chain theta vary flat (S j)) as [r|] eqn:E1; [|discriminate]. cbn [bind] in E. injection E as <-.
      destruct (IH _ _ _ E1) as [L1 H]. split; [cbn; now rewrite L1|]. intros [|i] Hi.
      * exists true, (fun k => at2 flat k j). cbn. rewrite Nat.add_0_r. auto.
      * destruct (H i) as (b & g & H1 & H2 & H3); [cbn in Hi; lia|]. exists b, g. cbn [nth_error]. repeat (split; [assumption|]).
        destruct b; [|exact H3]. cbn [rank]. replace (j + (1 + rank vary i))%nat with (S j + rank vary i)%nat by lia. exact H3.
    + destruct (theta_chain theta vary flat j) as [r|] eqn:E1; [|discriminate]. cbn [bind] in E. injection E as <-.
      destruct (IH _ _ _ E1) as [L1 H]. split; [cbn; now rewrite L1|]. intros [|i] Hi.
      * exists false, (fun _ => x). cbn. eauto 6.
      * destruct (H i) as (b & g & H1 & H2 & H3); [cbn in Hi; lia|]. exists b, g. cbn [nth_error rank]. auto.
Qed.

Lemma theta_chain_ok flat : forall theta vary j, length vary = length theta -> (j + nfree vary <= cols flat)%nat ->
  exists tc, theta_chain theta vary flat j = Ok tc.
Proof.
  induction theta as [|x theta IH]; intros [|b vary] j L H; try discriminate; [cbn; eauto|].
  unfold nfree in H. cbn [length rank] in H. cbn in L. injection L as L.
  destruct b; cbn [theta_chain].
  - destruct (Nat.ltb_spec j (cols flat)) as [Q|Q]; [|lia].
    destruct (IH vary (S j) L) as [tc ->]; [unfold nfree; lia|]. cbn. eauto.
  - destruct (IH vary j L) as [tc ->]; [unfold nfree; lia|]. cbn. eauto.
Qed.

Lemma row_nth a k j : (j < cols a)%nat -> nth_error (row a k) j = Some (at2 a k j).
Proof.
  intros H. unfold row. rewrite nth_error_map, nth_error_nth' with (d := 0%nat) by now rewrite seq_length.
  rewrite seq_nth by auto. reflexivity.
Qed.

Lemma chain_completes flat theta vary tc k : theta_chain theta vary flat 0 = Ok tc ->
  completes vary theta (row flat k) (map (fun c : nat -> fl => c k) tc).
Proof.
  intros E. destruct (theta_chain_spec _ _ _ _ _ E) as [L H]. split; [now rewrite map_length|].
  intros i Hi. destruct (H i Hi) as (b & g & H1 & H2 & H3). rewrite nth_error_map, H2. cbn [option_map].
  unfold free. rewrite H1. destruct b.
  - destruct H3 as [H3 H4]. split; [|congruence]. intros _. rewrite H4. cbn in H3 |- *. now rewrite row_nth.
  - destruct H3 as (x & H3 & H4). split; [congruence|]. intros _. now rewrite H4, H3.
Qed.

Lemma add_col_old a c k j : (j < cols a)%nat -> at2 (add_col a c) k j = at2 a k j.
Proof. intros H. unfold add_col. cbn [at2]. now rewrite (proj2 (Nat.ltb_lt _ _) H). Qed.
Lemma add_col_new a c k : at2 (add_col a c) k (cols a) = c k.
Proof. unfold add_col. cbn [at2]. now rewrite Nat.ltb_irrefl. Qed.

(** Names. *)
Lemma free_names_spec : forall names vary ns, free_names names vary = Ok ns ->
  length ns = rank vary (length names) /\
  forall i, (i < length names)%nat -> free vary i -> nth_error ns (rank vary i) = nth_error names i.
Proof.
  induction names as [|n names IH]; intros vary ns E.
  - cbn in E. destruct vary; injection E as <-; split; auto; cbn; intros; lia.
  - destruct vary as [|b vary]; cbn [free_names] in E; [discriminate|].
    destruct (free_names names vary) as [r|] eqn:E1; [|discriminate]. cbn [bind] in E. injection E as <-.
    destruct (IH _ _ E1) as [L H]. split.
    + cbn [length rank]. rewrite <- L. destruct b; reflexivity.
    + intros [|i] Hi F.
      * unfold free in F. cbn in F. injection F as ->. reflexivity.
      * unfold free in F. cbn in F. cbn in Hi. cbn [rank nth_error]. destruct b; cbn [Nat.add nth_error]; apply H; auto; lia.
Qed.
Lemma free_names_ok : forall names vary, length vary = length names -> exists ns, free_names names vary = Ok ns.
Proof.
  induction names as [|n names IH]; intros [|b vary] L; try discriminate; [cbn; eauto|].
  cbn in L. injection L as L. cbn [free_names]. destruct (IH vary L) as [r ->]. cbn. eauto.
Qed.

Lemma derive f h0 h' : add_v_re_22 f h0 = Ok h' -> exists h, abs_sigma f h0 = Ok h /\ derived f h h'.
Proof.
  unfold add_v_re_22. intros E. destruct (abs_sigma f h0) as [h|] eqn:Ea; [|discriminate]. cbn [bind] in E.
  exists h. split; auto.
  destruct (match f_theta f with [] => Err UnboundLocalError | _ :: _ => theta_chain (f_theta f) (f_vary f) (h_flat h) 0 end) as [tc|] eqn:Et; [|discriminate].
  assert (Et' : theta_chain (f_theta f) (f_vary f) (h_flat h) 0 = Ok tc) by (destruct (f_theta f); [discriminate|exact Et]).
  clear Et. cbn [bind] in E. destruct (Nat.ltb_spec (length tc) (kp_nv (f_prof f))) as [|L1]; [discriminate|]. cbn [bind] in E.
  destruct (Nat.ltb_spec (length tc) (kp_nv (f_prof f) + kp_nd (f_prof f))) as [|L2]; [discriminate|]. cbn [bind] in E.
  destruct (free_names (f_names f) (f_vary f)) as [ns|] eqn:En; [|discriminate]. cbn [bind] in E. injection E as <-.
  unfold derived. cbn [h_flat h_chain h_names]. set (d := cols (h_flat h)).
  split; [reflexivity|]. split; [cbn; unfold d; lia|]. split; [reflexivity|]. split.
  { intros k j Hj. rewrite !add_col_old by (cbn; fold d; lia). reflexivity. }
  split.
  { intros k. exists (map (fun c : nat -> fl => c k) tc). split; [now apply chain_completes|]. rewrite map_length. split; [exact L2|].
    rewrite skipn_map, !firstn_map. split.
    { rewrite !add_col_old by (cbn; fold d; lia). unfold d. rewrite add_col_new. reflexivity. }
    split.
    { rewrite !add_col_old by (cbn; fold d; lia). replace (d + 1)%nat with (S d) by lia.
      match goal with |- at2 (add_col ?a ?c) k (S d) = _ => change (S d) with (cols a); rewrite (add_col_new a c) end. reflexivity. }
    split.
    { rewrite add_col_old by (cbn; fold d; lia). replace (d + 2)%nat with (S (S d)) by lia.
      match goal with |- at2 (add_col ?a ?c) k (S (S d)) = _ => change (S (S d)) with (cols a); rewrite (add_col_new a c) end. reflexivity. }
    replace (d + 3)%nat with (S (S (S d))) by lia.
    match goal with |- at2 (add_col ?a ?c) k (S (S (S d))) = _ => change (S (S (S d))) with (cols a); rewrite (add_col_new a c) end. reflexivity. }
  exists ns. split; [reflexivity|]. apply free_names_spec, En.
Qed.

Lemma derive_ok f h : length (f_vary f) = length (f_theta f) -> length (f_names f) = length (f_theta f) -> 
  (kp_nv (f_prof f) + kp_nd (f_prof f) <= length (f_theta f))%nat -> (0 < length (f_theta f))%nat ->
  (nfree (f_vary f) <= cols (h_flat h))%nat -> f_abs f = false -> exists h', add_v_re_22 f h = Ok h'.
Proof.
  intros L1 L2 L3 L4 L5 A. unfold add_v_re_22, abs_sigma. rewrite A. cbn [bind].
  destruct (theta_chain_ok (h_flat h) (f_theta f) (f_vary f) 0 L1 L5) as [tc E].
  destruct (f_theta f) as [|x t] eqn:Ex; [cbn in L4; lia|]. rewrite <- Ex in *. rewrite E. cbn [bind].
  destruct (theta_chain_spec _ _ _ _ _ E) as [L _]. 
  destruct (Nat.ltb_spec (length tc) (kp_nv (f_prof f))); [lia|]. cbn [bind].
  destruct (Nat.ltb_spec (length tc) (kp_nv (f_prof f) + kp_nd (f_prof f))); [lia|]. cbn [bind].
  destruct (free_names_ok (f_names f) (f_vary f)) as [ns ->]; [congruence|]. cbn. eauto.
Qed.

(** The absolute value of the dispersion. *)
Lemma free_inds_spec : forall n vary j r, free_inds vary j n = Ok r -> length r = n /\
  forall i, (i < n)%nat -> exists b, nth_error vary i = Some b /\ 
    nth_error r i = Some (if b then Some (j + rank vary i)%nat else None).
Proof.
  induction n as [|n IH]; intros vary j r E; [destruct vary; cbn in E; injection E as <-; split; auto; intros; lia|].
  destruct vary as [|b vary]; [discriminate|]. cbn [free_inds] in E.
  destruct (free_inds vary (if b then S j else j) n) as [r'|] eqn:E1; [|discriminate]. cbn [bind] in E. injection E as <-.
  destruct (IH _ _ _ E1) as [L H]. split; [cbn; now rewrite L|]. intros [|i] Hi.
  - exists b. cbn. rewrite Nat.add_0_r. auto.
  - destruct (H i) as (b' & H1 & H2); [lia|]. exists b'. cbn [nth_error rank]. split; auto. rewrite H2. destruct b, b'; do 2 f_equal; lia.
Qed.
Lemma free_inds_ok : forall n vary j, (n <= length vary)%nat -> exists r, free_inds vary j n = Ok r.
Proof.
  induction n as [|n IH]; intros vary j L; [destruct vary; cbn; eauto|]. destruct vary as [|b vary]; [cbn in L; lia|].
  cbn [free_inds]. destruct (IH vary (if b then S j else j)) as [r ->]; [cbn in L; lia|]. cbn. eauto.
Qed.

Lemma abs_free f h h' : abs_sigma f h = Ok h' -> f_abs f = true -> free (f_vary f) (kp_nv (f_prof f)) ->
  let c := rank (f_vary f) (kp_nv (f_prof f)) in
  kp_nd (f_prof f) = 1%nat /\ h_names h' = h_names h /\
  rows (h_flat h') = rows (h_flat h) /\ cols (h_flat h') = cols (h_flat h) /\
  (forall k j, j <> c -> at2 (h_flat h') k j = at2 (h_flat h) k j) /\
  (forall k, at2 (h_flat h') k c = fabs (at2 (h_flat h) k c)) /\
  (forall w k j, j <> c -> at3 (h_chain h') w k j = at3 (h_chain h) w k j) /\
  (forall w k, at3 (h_chain h') w k c = fabs (at3 (h_chain h) w k c)).
Proof.
  intros E A F c. unfold abs_sigma in E. rewrite A in E.
  destruct (Nat.eqb_spec (kp_nd (f_prof f)) 1) as [N|N]; [|discriminate].
  destruct (free_inds (f_vary f) 0 (length (f_theta f))) as [fi|] eqn:E1; [|discriminate]. cbn [bind] in E.
  destruct (free_inds_spec _ _ _ _ E1) as [L H].
  destruct (getn fi (kp_nv (f_prof f))) as [ind|] eqn:E2; [|discriminate]. cbn [bind] in E. apply getn_ok in E2.
  destruct (H (kp_nv (f_prof f))) as (b & B1 & B2); [rewrite <- L; apply nth_error_Some; congruence|].
  unfold free in F. rewrite F in B1. injection B1 as <-. rewrite E2 in B2. injection B2 as ->. cbn [Nat.add] in E.
  fold c in E. destruct (Nat.ltb c (cols (h_flat h)) && Nat.ltb c (dim2 (h_chain h))); [|discriminate]. injection E as <-.
  cbn. repeat split; auto; intros; try (now rewrite Nat.eqb_refl); now rewrite (proj2 (Nat.eqb_neq j c)).
Qed.

Lemma abs_fixed f h h' : abs_sigma f h = Ok h' -> f_abs f = true -> ~ free (f_vary f) (kp_nv (f_prof f)) ->
  (forall k j, at2 (h_flat h') k j = fabs (at2 (h_flat h) k j)) /\
  (forall w k j, at3 (h_chain h') w k j = fabs (at3 (h_chain h) w k j)).
Proof.
  intros E A F. unfold abs_sigma in E. rewrite A in E.
  destruct (Nat.eqb_spec (kp_nd (f_prof f)) 1) as [N|N]; [|discriminate].
  destruct (free_inds (f_vary f) 0 (length (f_theta f))) as [fi|] eqn:E1; [|discriminate]. cbn [bind] in E.
  destruct (free_inds_spec _ _ _ _ E1) as [L H].
  destruct (getn fi (kp_nv (f_prof f))) as [ind|] eqn:E2; [|discriminate]. cbn [bind] in E. apply getn_ok in E2.
  destruct (H (kp_nv (f_prof f))) as (b & B1 & B2); [rewrite <- L; apply nth_error_Some; congruence|].
  destruct b; [elim F; exact B1|]. rewrite E2 in B2. injection B2 as ->. injection E as <-. cbn. auto.
Qed.

Lemma abs_other f h : f_abs f = true -> kp_nd (f_prof f) <> 1%nat -> add_v_re_22 f h = Err ValueError.
Proof.
  intros A N. unfold add_v_re_22, abs_sigma. rewrite A. destruct (Nat.eqb_spec (kp_nd (f_prof f)) 1); [contradiction|reflexivity].
Qed.
Lemma abs_off f h : f_abs f = false -> abs_sigma f h = Ok h.
Proof. intros A. unfold abs_sigma. now rewrite A. Qed.

(** Repeating the analysis. *)
Lemma repeat_columns f h h1 h2 : add_v_re_22 f h = Ok h1 -> add_v_re_22 f h1 = Ok h2 ->
  cols (h_flat h2) = (cols (h_flat h) + 8)%nat /\ h_names h2 = h_names h1.
Proof.
  intros E1 E2. destruct (derive _ _ _ E1) as (a & A1 & D1). destruct (derive _ _ _ E2) as (b & A2 & D2).
  assert (C : forall h h', abs_sigma f h = Ok h' -> cols (h_flat h') = cols (h_flat h)).
  { clear. intros h h' E. unfold abs_sigma in E. destruct (f_abs f); [|now injection E as <-].
    destruct (Nat.eqb (kp_nd (f_prof f)) 1); [|discriminate]. destruct (free_inds _ _ _); [|discriminate]. cbn [bind] in E.
    destruct (getn _ _) as [[j|]|]; cbn [bind] in E; [|now injection E as <-|discriminate].
    destruct (_ && _); [now injection E as <-|discriminate]. }
  pose proof (C _ _ A1) as C1. pose proof (C _ _ A2) as C2.
  destruct D1 as (_ & X1 & _). destruct D2 as (_ & X2 & _). split; [lia|].
  unfold add_v_re_22 in E1, E2. rewrite A1 in E1. rewrite A2 in E2. cbn [bind] in E1, E2.
  destruct (match f_theta f with [] => Err UnboundLocalError | _ :: _ => theta_chain (f_theta f) (f_vary f) (h_flat a) 0 end); [|discriminate].
  destruct (match f_theta f with [] => Err UnboundLocalError | _ :: _ => theta_chain (f_theta f) (f_vary f) (h_flat b) 0 end); [|discriminate].
  cbn [bind] in E1, E2.
  destruct (Nat.ltb (length a0) (kp_nv (f_prof f))); [discriminate|]. destruct (Nat.ltb (length a1) (kp_nv (f_prof f))); [discriminate|].
  cbn [bind] in E1, E2.
  destruct (Nat.ltb (length a0) (kp_nv (f_prof f) + kp_nd (f_prof f))); [discriminate|].
  destruct (Nat.ltb (length a1) (kp_nv (f_prof f) + kp_nd (f_prof f))); [discriminate|]. cbn [bind] in E1, E2.
  destruct (free_names (f_names f) (f_vary f)); [|discriminate]. cbn [bind] in E1, E2. injection E1 as <-. injection E2 as <-. reflexivity.
Qed.
