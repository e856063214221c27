(* Properties of the analysis of a chain, and examples. *)
From Coq Require Import String Reals List Bool Arith ZArith Lra Lia Sorted Permutation.
From Verif Require Import PyFloat PyBase Arr PyNum MParams SParams PParams MProf MPost SPost PPost PPost2 PPost3.
Import ListNotations.
Local Open Scope R_scope.

(** The fiducial profile spelled out. *)
Lemma fiducial_columns f h h' k va rt s re : f_abs f = false -> f_prof f = fiducial -> f_re f = Fin re ->
  add_v_re_22 f h = Ok h' -> 
  forall v, completes (f_vary f) (f_theta f) (row (h_flat h) k) v ->
  nth_error v 0 = Some (Fin va) -> nth_error v 1 = Some (Fin rt) -> nth_error v 2 = Some (Fin s) -> rt <> 0 ->
  let d := cols (h_flat h) in
  at2 (h_flat h') k d = Fin (2 / PI * va * atan (re / rt)) /\
  at2 (h_flat h') k (d + 1) = Fin (2 / PI * va * atan (22/10/(1676/1000) * re / rt)) /\
  at2 (h_flat h') k (d + 2) = Fin s /\ at2 (h_flat h') k (d + 3) = Fin s.
Proof.
  intros A P Re E v Cv V0 V1 V2 Rt d. destruct (derive _ _ _ E) as (a & Ea & D). rewrite (abs_off f h A) in Ea. injection Ea as <-.
  destruct D as (_ & _ & _ & _ & D & _). destruct (D k) as (v' & Cv' & L & D1 & D2 & D3 & D4). clear D. fold d in D1, D2, D3, D4.
  assert (v' = v).
  { destruct Cv as [L1 C1], Cv' as [L2 C2]. apply nth_error_ext. intros i. destruct (Nat.lt_ge_cases i (length (f_theta f))) as [Hi|Hi].
    - destruct (C1 i Hi) as [X1 X2], (C2 i Hi) as [Y1 Y2]. unfold free in *.
      destruct (nth_error (f_vary f) i) as [[]|]; [rewrite X1, Y1|rewrite X2, Y2|rewrite X2, Y2]; congruence.
    - rewrite (proj2 (nth_error_None v i)), (proj2 (nth_error_None v' i)) by lia. reflexivity. }
  subst v'. destruct v as [|x0 [|x1 [|x2 v]]]; try discriminate. cbn in V0, V1, V2. injection V0 as ->. injection V1 as ->. injection V2 as ->.
  rewrite P, Re in *. cbn [fiducial kp_nv kp_nd kp_vel kp_sig firstn skipn vel_arctan disp_const] in D1, D2, D3, D4.
  assert (Z : Reqb rt 0 = false) by now apply Reqb_false.
  unfold fdiv in D1, D2. cbn [fmul] in D1, D2, D3, D4. rewrite Z in D1, D2. cbn [fatan fmul fadd] in D1, D2, D3, D4.
  repeat split; [exact D1|exact D2|rewrite D3; f_equal; ring|rewrite D4; f_equal; ring].
Qed.

(** Two rows, velocity, radius and dispersion free; position and redshift fixed. *)
Definition ex_fit (abs_ sfree : bool) : fitted :=
  mkFitted abs_ fiducial [Fin 200; Fin 1; Fin 50; Fin 0; Fin 2] [true; true; sfree; false; false]
    ["Va"; "rt"; "sigma"; "m0"; "z"]%string (Fin 1).
Definition ex_chain (c : nat) : chains :=
  mkChains (mk2 2 c (fun k j => if Nat.eqb j 1 then Fin 1 else Fin (-100 - INR k)))
           (mk3 1 2 c (fun _ k j => if Nat.eqb j 1 then Fin 1 else Fin (-100 - INR k))) [].

Lemma ex_columns : exists h', add_v_re_22 (ex_fit false true) (ex_chain 3) = Ok h' /\ cols (h_flat h') = 7%nat /\
  h_names h' = ["Va"; "rt"; "sigma"; "V_RE"; "V_22"; "sigma_RE"; "sigma_22"]%string /\
  at2 (h_flat h') 0 3 = Fin (2 / PI * -100 * atan (1 / 1)) /\ at2 (h_flat h') 1 5 = Fin (-101).
Proof.
  destruct (derive_ok (ex_fit false true) (ex_chain 3)) as [h' E]; try reflexivity; try (cbn; lia).
  exists h'. split; auto. split.
  - destruct (derive _ _ _ E) as (a & Ea & D). rewrite abs_off in Ea by reflexivity. injection Ea as <-.
    destruct D as (_ & D & _). exact D.
  - split; [unfold add_v_re_22 in E; cbn in E; injection E as <-; reflexivity|]. split.
    + assert (X := fiducial_columns (ex_fit false true) (ex_chain 3) h' 0 (-100) 1 (-100) 1 eq_refl eq_refl eq_refl E
        [Fin (-100); Fin 1; Fin (-100); Fin 0; Fin 2]).
      destruct X as (X & _); try reflexivity; try lra; [|exact X]. split; [reflexivity|].
      intros i Hi. unfold free. replace (-100) with (-100 - INR 0) by (cbn; lra). destruct i as [|[|[|[|[|i]]]]]; cbn [ex_fit f_vary nth_error];
        (split; [intros F; try discriminate|intros F; try congruence]); try reflexivity; cbn in Hi; lia.
    + assert (X := fiducial_columns (ex_fit false true) (ex_chain 3) h' 1 (-101) 1 (-101) 1 eq_refl eq_refl eq_refl E
        [Fin (-101); Fin 1; Fin (-101); Fin 0; Fin 2]).
      destruct X as (_ & _ & X & _); try reflexivity; try lra; [|exact X]. split; [reflexivity|].
      intros i Hi. unfold free. replace (-101) with (-100 - INR 1) by (cbn; lra). destruct i as [|[|[|[|[|i]]]]]; cbn [ex_fit f_vary nth_error];
        (split; [intros F; try discriminate|intros F; try congruence]); try reflexivity; cbn in Hi; lia.
Qed.

(** absvalsigma with the dispersion fixed. *)
Lemma abs_refuted : exists f h h', f_abs f = true /\ f_prof f = fiducial /\ add_v_re_22 f h = Ok h' /\ 
  free (f_vary f) 0 /\ rank (f_vary f) 0 = 0%nat /\ at2 (h_flat h) 0 0 = Fin (-100) /\ at2 (h_flat h') 0 0 = Fin 100.
Proof.
  set (f := ex_fit true false). set (h := ex_chain 2).
  assert (X : exists h', add_v_re_22 f h = Ok h').
  { unfold add_v_re_22. cbn. eauto. }
  destruct X as [h' E]. exists f, h, h'. repeat split; auto.
  - cbn. f_equal. lra.
  - destruct (derive _ _ _ E) as (a & Ea & D). destruct (abs_fixed f h a Ea eq_refl) as [A _]; [unfold free; cbn; discriminate|].
    assert (C : cols (h_flat a) = 2%nat) by (unfold abs_sigma in Ea; cbn in Ea; injection Ea as <-; reflexivity).
    destruct D as (_ & _ & _ & D & _). rewrite D by (rewrite C; lia). rewrite A. cbn. f_equal.
    replace (-100 - 0) with (-(100)) by lra. rewrite Rabs_Ropp. apply Rabs_right. lra.
Qed.

Lemma abs_kept f h h' : add_v_re_22 f h = Ok h' -> f_abs f = true -> free (f_vary f) (kp_nv (f_prof f)) ->
  let c := rank (f_vary f) (kp_nv (f_prof f)) in
  (forall k j, (j < cols (h_flat h))%nat -> at2 (h_flat h') k j = (if Nat.eqb j c then fabs (at2 (h_flat h) k j) else at2 (h_flat h) k j)) /\
  (forall w k j, at3 (h_chain h') w k j = (if Nat.eqb j c then fabs (at3 (h_chain h) w k j) else at3 (h_chain h) w k j)).
Proof.
  intros E A F c. destruct (derive _ _ _ E) as (a & Ea & D).
  destruct (abs_free f h a Ea A F) as (_ & _ & R & C & X1 & X2 & X3 & X4). fold c in X1, X2, X3, X4.
  destruct D as (_ & _ & Dc & D & _). split.
  - intros k j Hj. rewrite D by (rewrite C; exact Hj). destruct (Nat.eqb_spec j c) as [->|N]; auto.
  - intros w k j. rewrite Dc. destruct (Nat.eqb_spec j c) as [->|N]; auto.
Qed.

(** Repetition: names and columns stop matching. *)
Lemma names_match f h h' : add_v_re_22 f h = Ok h' -> length (f_names f) = length (f_vary f) -> 
  cols (h_flat h) = nfree (f_vary f) -> f_abs f = false -> length (h_names h') = cols (h_flat h').
Proof.
  intros E L C A. destruct (derive _ _ _ E) as (a & Ea & D). rewrite (abs_off f h A) in Ea. injection Ea as <-.
  destruct D as (_ & D1 & _ & _ & _ & ns & D2 & D3 & _). rewrite D1, D2, app_length, D3, L, C. reflexivity.
Qed.
Lemma repeat_refuted : exists f h h1 h2, f_abs f = false /\ cols (h_flat h) = nfree (f_vary f) /\
  add_v_re_22 f h = Ok h1 /\ add_v_re_22 f h1 = Ok h2 /\
  length (h_names h1) = cols (h_flat h1) /\ length (h_names h2) <> cols (h_flat h2).
Proof.
  set (f := ex_fit false true). set (h := ex_chain 3).
  destruct (derive_ok f h) as [h1 E1]; try reflexivity; try (cbn; lia).
  assert (M : length (h_names h1) = cols (h_flat h1)) by (apply (names_match f h); auto).
  destruct (derive _ _ _ E1) as (a & Ea & D). rewrite abs_off in Ea by reflexivity. injection Ea as <-.
  destruct D as (_ & C1 & _).
  destruct (derive_ok f h1) as [h2 E2]; try reflexivity; try (cbn; lia); try (rewrite C1; cbn; lia).
  destruct (repeat_columns _ _ _ _ E1 E2) as [C2 N2]. exists f, h, h1, h2. repeat split; auto.
  rewrite N2, M, C1, C2. cbn. lia.
Qed.

(** Without linked groups the free best-fit values do not change. *)
Lemma peaks_firstn K : forall cs n r, peaks K cs = Ok r -> peaks K (firstn n cs) = Ok (firstn n r).
Proof.
  induction cs as [|c cs IH]; intros n r E; [injection E as <-; destruct n; reflexivity|].
  cbn [peaks] in E. destruct n as [|n]; [reflexivity|]. cbn [firstn peaks].
  destruct (if Nat.eqb (length c) 0 then Err ValueError else if forallb isfinite c then k_one K c else Err ValueError) as [p|]; [|discriminate].
  cbn [bind] in *. destruct (peaks K cs) as [r'|]; [|discriminate]. cbn [bind] in E. injection E as <-. 
  rewrite (IH n r' eq_refl). reflexivity.
Qed.

Lemma abs_same_cols f h a : abs_sigma f h = Ok a -> cols (h_flat a) = cols (h_flat h) /\ rows (h_flat a) = rows (h_flat h).
Proof.
  intros E. unfold abs_sigma in E. destruct (f_abs f); [|now injection E as <-].
  destruct (Nat.eqb (kp_nd (f_prof f)) 1); [|discriminate]. destruct (free_inds _ _ _); [|discriminate]. cbn [bind] in E.
  destruct (getn _ _) as [[j|]|]; cbn [bind] in E; [|now injection E as <-|discriminate].
  destruct (_ && _); [now injection E as <-|discriminate].
Qed.

Lemma repeat_bestfit K f h h1 h2 p1 p2 : f_abs f = false -> (n_free_param (f_vary f) <= cols (h_flat h))%nat ->
  chain_results K None f h = Ok (h1, p1) -> chain_results K None f h1 = Ok (h2, p2) -> p_fit p2 = p_fit p1.
Proof.
  intros A N E1 E2. unfold chain_results in E1, E2.
  destruct (add_v_re_22 f h) as [g1|] eqn:V1; [|discriminate]. cbn [bind] in E1.
  destruct (posterior K None (f_vary f) (h_flat g1)) as [q1|] eqn:P1; [|discriminate]. cbn [bind] in E1. injection E1 as <- <-.
  destruct (add_v_re_22 f g1) as [g2|] eqn:V2; [|discriminate]. cbn [bind] in E2.
  destruct (posterior K None (f_vary f) (h_flat g2)) as [q2|] eqn:P2; [|discriminate]. cbn [bind] in E2. injection E2 as <- <-.
  destruct (posterior_inv _ _ _ _ _ P1) as (b1 & B1 & L1 & _ & _ & (X1 & _) & _ & F1).
  destruct (posterior_inv _ _ _ _ _ P2) as (b2 & B2 & L2 & _ & _ & (X2 & _) & _ & F2).
  rewrite F1, F2, X1, X2. set (n := n_free_param (f_vary f)) in *.
  destruct (derive _ _ _ V1) as (a1 & A1 & D1). rewrite (abs_off f h A) in A1. injection A1 as <-.
  destruct (derive _ _ _ V2) as (a2 & A2 & D2). rewrite (abs_off f g1 A) in A2. injection A2 as <-.
  destruct D1 as (R1 & C1 & _ & _). destruct D2 as (R2 & C2 & _ & D2 & _).
  assert (Q : firstn n (map (col (h_flat g2)) (seq 0 (cols (h_flat g2)))) = firstn n (map (col (h_flat g1)) (seq 0 (cols (h_flat g1))))).
  { rewrite !firstn_map. assert (S : forall m, (n <= m)%nat -> firstn n (seq 0 m) = seq 0 n).
    { intros m Hm. replace m with (n + (m - n))%nat by lia. rewrite seq_app, firstn_app, seq_length, Nat.sub_diag, firstn_all2 by (rewrite seq_length; lia). apply app_nil_r. }
    rewrite !S by lia. apply map_ext_in. intros j Hj. apply in_seq in Hj. unfold col. rewrite R2. apply map_ext. intros i. apply D2. lia. }
  apply (peaks_firstn K _ n) in B1. apply (peaks_firstn K _ n) in B2. rewrite Q, B1 in B2. now injection B2 as ->.
Qed.

(** Summaries. *)
Lemma summaries K links vary flat p : posterior K links vary flat = Ok p -> (0 < cols flat)%nat ->
  length (p_best p) = cols flat /\ (0 < rows flat)%nat /\
  (forall i j, (i < rows flat)%nat -> (j < cols flat)%nat -> exists x, at2 flat i j = Fin x) /\
  (forall j, (j < cols flat)%nat -> exists lo2 lo1 hi1 hi2,
     quantile (15865/100000) (rcol flat j) lo1 /\ quantile (84135/100000) (rcol flat j) hi1 /\
     quantile (2275/100000) (rcol flat j) lo2 /\ quantile (97725/100000) (rcol flat j) hi2 /\
     lo2 <= lo1 <= hi1 /\ hi1 <= hi2 /\ (exists a b, In a (rcol flat j) /\ In b (rcol flat j) /\ a <= lo2 /\ hi2 <= b) /\
     exists b, nth_error (p_best p) j = Some b /\
      (links = None -> k_one K (col flat j) = Ok b /\
        nth_error (p_err1 p) j = Some (fsub b (Fin lo1), fsub (Fin hi1) b) /\
        nth_error (p_err2 p) j = Some (fsub b (Fin lo2), fsub (Fin hi2) b)) /\
      exists o, nth_error (p_opp p) j = Some (Fin o) /\ 0 <= o <= 100 /\
       forall r, b = Fin r ->
         o = 100 * INR (length (filter (fun x => if Rlt_dec (r * x) 0 then true else false) (rcol flat j))) / INR (rows flat)) /\
  p_fit p = firstn (nfree vary) (p_best p).
Proof.
  intros E C. pose proof (posterior_length _ _ _ _ _ E) as Lb. destruct (posterior_inv _ _ _ _ _ E) as (best & P & L & A1 & A2 & X & O & F).
  destruct (peaks_spec _ _ _ P) as [_ H].
  assert (R : (0 < rows flat)%nat).
  { destruct (H 0%nat _ (cols_nth flat 0 C)) as (N & _). unfold col in N. destruct (rows flat); [elim N; reflexivity|lia]. }
  split; auto. split; auto. split.
  { intros i j Hi Hj. destruct (H j _ (cols_nth flat j Hj)) as (_ & Fi & _). rewrite forallb_forall in Fi.
    assert (T : isfinite (at2 flat i j) = true).
    { apply Fi. unfold col. apply in_map_iff. exists i. split; [reflexivity|apply in_seq; lia]. }
    destruct (at2 flat i j); try discriminate. eauto. }
  split; [|now rewrite F, n_free_param_nfree].
  intros j Hj. destruct (H j _ (cols_nth flat j Hj)) as (_ & Fi & b0 & Hb0 & Kb).
  destruct (column_limits flat j R Fi) as (lo2 & lo1 & hi1 & hi2 & Q1 & Q2 & Q3 & Q4 & Y1 & Y2 & Y3 & Y4 & Or & Or2 & In_).
  exists lo2, lo1, hi1, hi2. repeat (split; [assumption|]).
  destruct (nth_error (p_best p) j) as [b|] eqn:Hb; [|apply nth_error_None in Hb; lia].
  exists b. split; auto. split.
  - intros ->. destruct X as (X1 & X2 & X3). assert (b = b0) by congruence. subst b0. split; auto. rewrite X2, X3.
    destruct A1 as (_ & _ & A1). destruct A2 as (_ & _ & A2).
    rewrite (A1 j b _ Hb0 (limits_nth flat _ _ j Hj)), (A2 j b _ Hb0 (limits_nth flat _ _ j Hj)). cbn [fst snd].
    rewrite Y1, Y2, Y3, Y4. auto.
  - destruct (opposite_range flat (p_best p) j b R Hb) as (o & O1 & O2 & O3). exists o. rewrite O. split; [exact O1|]. split; [exact O2|].
    intros r Hr. now apply O3.
Qed.

(** Linked groups. *)
Lemma spans_of_agree flat q1 q2 best err j : (0 < rows flat)%nat -> (j < cols flat)%nat -> forallb isfinite (col flat j) = true -> 
  0 <= q1 <= 1 -> 0 <= q2 <= 1 -> agree best err (limits flat (q1 * 100) (q2 * 100)) -> spans q1 q2 flat best err j.
Proof.
  intros R C F Q1 Q2 (L1 & L2 & A).
  assert (N : rcol flat j <> []) by (unfold rcol; destruct (rows flat); [lia|discriminate]).
  destruct (percentile_Fin (q1 * 100) (rcol flat j)) as (lo & E1 & X1); [exact N|lra|].
  destruct (percentile_Fin (q2 * 100) (rcol flat j)) as (hi & E2 & X2); [exact N|lra|].
  rewrite limits_length in L1. destruct (nth_error best j) as [b|] eqn:Hb; [|apply nth_error_None in Hb; lia].
  exists lo, hi, b. replace (q1 * 100 / 100) with q1 in X1 by lra. replace (q2 * 100 / 100) with q2 in X2 by lra. 
  split; auto. split; auto. split; auto. rewrite (A j b _ Hb (limits_nth flat _ _ j C)). cbn [fst snd].
  rewrite (col_finite _ _ F), E1, E2. reflexivity.
Qed.

Lemma members_group g n j : In j (members g n) <-> group g n j.
Proof. destruct g; cbn; [rewrite in_seq; lia|tauto]. Qed.

Lemma linked_one K g vary flat p : posterior K (Some [g]) vary flat = Ok p ->
  (forall j, (j < cols flat)%nat -> spans (15865/100000) (84135/100000) flat (p_best p) (p_err1 p) j) /\
  (forall j, (j < cols flat)%nat -> ~ group g (cols flat) j -> exists b, k_one K (col flat j) = Ok b /\ nth_error (p_best p) j = Some b) /\
  (forall l, g = LinkInds l -> NoDup l -> exists init peak, 
      k_many K (map (col flat) l) init = Ok peak /\
      (forall k j, nth_error l k = Some j -> exists b, k_one K (col flat j) = Ok b /\ nth_error init k = Some b) /\
      forall k j, nth_error l k = Some j -> nth_error (p_best p) j = nth_error peak k).
Proof.
  intros E. destruct (posterior_inv _ _ _ _ _ E) as (best & P & L & A1 & A2 & X & _).
  destruct (peaks_spec _ _ _ P) as [_ H]. destruct (one_group _ _ _ _ _ _ _ _ _ _ _ A1 X) as (G1 & G2 & G3 & G4).
  assert (R : forall j, (j < cols flat)%nat -> (0 < rows flat)%nat /\ forallb isfinite (col flat j) = true).
  { intros j Hj. destruct (H j _ (cols_nth flat j Hj)) as (N & F & _). split; auto. unfold col in N. destruct (rows flat); [now elim N|lia]. }
  split.
  { intros j Hj. destruct (R j Hj). apply spans_of_agree; auto; try lra.
    replace (15865/100000*100) with (15865/1000) by lra. replace (84135/100000*100) with (84135/1000) by lra. exact G1. }
  rewrite L in *. split.
  { intros j Hj N. destruct (H j _ (cols_nth flat j Hj)) as (_ & _ & b & B1 & B2). exists b. split; auto.
    rewrite G3; auto. now rewrite members_group. }
  intros l -> ND. destruct (G4 ND) as (init & peak & T & Pk & Z). cbn [members] in *. exists init, peak. split; auto. split; auto.
  intros k j Hk. 
  assert (T' : forall l init, take best l = Ok init -> forall k j, nth_error l k = Some j -> exists b, nth_error best j = Some b /\ nth_error init k = Some b).
  { clear. induction l as [|i l IH]; intros init T [|k] j Hk; try discriminate; cbn [take] in T;
      destruct (getn best i) as [x|] eqn:Ex; try discriminate; cbn [bind] in T; destruct (take best l) as [r|]; try discriminate; cbn [bind] in T; injection T as <-.
    - injection Hk as <-. apply getn_ok in Ex. exists x. auto.
    - exact (IH r eq_refl k j Hk). }
  destruct (T' l init T k j Hk) as (b & B1 & B2). exists b. split; auto.
  assert (Hj : (j < cols flat)%nat) by (rewrite <- L; apply nth_error_Some; congruence).
  destruct (H j _ (cols_nth flat j Hj)) as (_ & _ & b' & B3 & B4). congruence.
Qed.

Lemma linked_any K gs vary flat p : posterior K (Some gs) vary flat = Ok p ->
  (forall cs init peak, k_many K cs init = Ok peak -> k_many K cs peak = Ok peak /\ length peak = length init) ->
  (forall l, In (LinkInds l) gs -> NoDup l) ->
  forall j, (j < cols flat)%nat -> spans (2275/100000) (97725/100000) flat (p_best p) (p_err2 p) j.
Proof.
  intros E St ND j Hj. destruct (posterior_inv _ _ _ _ _ E) as (best & P & L & A1 & A2 & X & _).
  destruct (peaks_spec _ _ _ P) as [_ H]. destruct (H j _ (cols_nth flat j Hj)) as (N & F & _).
  apply two_sigma in X; auto; try (intros cs init peak Q; now apply (St cs init peak)).
  - apply spans_of_agree; auto; try lra.
    + unfold col in N. destruct (rows flat); [now elim N|lia].
    + replace (2275/100000*100) with (2275/1000) by lra. replace (97725/100000*100) with (97725/1000) by lra. exact X.
  - intros [|l] I; cbn [members]; [apply seq_NoDup|now apply ND].
Qed.

(** Two groups, three samples 0, 1, 2 in each of two columns. *)
Definition ex_kde : kde := mkKde (fun _ => Ok (Fin 1)) (fun _ init => Ok init).
Definition ex_flat : arr2 fl := mk2 3 2 (fun i _ => Fin (INR i)).

Lemma ex_quantile q : 0 <= q <= 1/2 -> percentile (q * 100) [Fin 0; Fin 1; Fin 2] = Fin (2 * q).
Proof.
  intros Q. destruct (percentile_Fin (q * 100) [0; 1; 2]) as (v & E & V); [discriminate|lra|].
  cbn [map] in E. rewrite E. f_equal. replace (q * 100 / 100) with q in V by lra.
  apply (quantile_unique q [0;1;2]); auto. exists [0;1;2], 0%nat.
  split; [reflexivity|]. split; [repeat constructor; lra|]. split; [cbn; lia|]. cbn. split; lra.
Qed.
Lemma ex_quantile' q : 1/2 <= q <= 1 -> percentile (q * 100) [Fin 0; Fin 1; Fin 2] = Fin (2 * q).
Proof.
  intros Q. destruct (percentile_Fin (q * 100) [0; 1; 2]) as (v & E & V); [discriminate|lra|].
  cbn [map] in E. rewrite E. f_equal. replace (q * 100 / 100) with q in V by lra.
  apply (quantile_unique q [0;1;2]); auto. exists [0;1;2], 1%nat.
  split; [reflexivity|]. split; [repeat constructor; lra|]. split; [cbn; lia|]. cbn. split; lra.
Qed.
Lemma ex_col j : col ex_flat j = [Fin 0; Fin 1; Fin 2].
Proof. unfold col. cbn. repeat f_equal; lra. Qed.

Lemma linked_refuted : exists K gs vary flat p, posterior K (Some gs) vary flat = Ok p /\
  (forall cs init peak, k_many K cs init = Ok peak -> k_many K cs peak = Ok peak /\ length peak = length init) /\
  (forall l, In (LinkInds l) gs -> NoDup l) /\ length gs = 2%nat /\ cols flat = 2%nat /\
  ~ spans (15865/100000) (84135/100000) flat (p_best p) (p_err1 p) 1.
Proof.
  exists ex_kde, [LinkInds [0%nat]; LinkInds [1%nat]], [true; true], ex_flat.
  assert (X : exists p, posterior ex_kde (Some [LinkInds [0%nat]; LinkInds [1%nat]]) [true; true] ex_flat = Ok p /\
     nth_error (p_best p) 1 = Some (Fin 1) /\ nth_error (p_err1 p) 1 = Some (fsub (Fin 1) (Fin (2 * (2275/100000))), fsub (Fin (2 * (97725/100000))) (Fin 1))).
  { unfold posterior. cbn [ex_flat cols seq map]. rewrite !ex_col.
    replace (15865/1000) with (15865/100000*100) by lra. replace (84135/1000) with (84135/100000*100) by lra.
    replace (2275/1000) with (2275/100000*100) by lra. replace (97725/1000) with (97725/100000*100) by lra.
    rewrite !(ex_quantile (15865/100000)), !(ex_quantile (2275/100000)), !(ex_quantile' (84135/100000)), !(ex_quantile' (97725/100000)) by lra.
    eexists. split; [reflexivity|]. split; reflexivity. }
  destruct X as (p & E & B & Er). exists p. split; auto. split.
  { intros cs init peak Q. cbn in Q. injection Q as <-. auto. }
  split. { intros l [I|[I|[]]]; injection I as <-; constructor; auto; constructor. }
  split; [reflexivity|]. split; [reflexivity|].
  intros (lo & hi & b & Q1 & Q2 & Hb & He). assert (b = Fin 1) by congruence. subst b.
  rewrite Er in He. unfold fsub in He. cbn [fadd fneg] in He. injection He as He _.
  assert (lo = 2 * (15865/100000)); [|lra].
  apply (quantile_unique (15865/100000) (rcol ex_flat 1)); auto. exists [0;1;2], 0%nat.
  split; [unfold rcol; cbn; replace (1 + 1) with 2 by lra; reflexivity|].
  split; [repeat constructor; lra|]. split; [cbn; lia|]. cbn. split; lra.
Qed.

(** Fixed dispersion: the derived dispersion column is constant. *)
Lemma fixed_dispersion K links f h s : f_prof f = fiducial -> f_abs f = false -> length (f_vary f) = length (f_theta f) ->
  ~ free (f_vary f) 2 -> nth_error (f_theta f) 2 = Some (Fin s) -> (exists re, f_re f = Fin re) ->
  (forall c x, (forall y, In y c -> y = Fin x) -> exists e, k_one K c = Err e) ->
  exists e, chain_results K links f h = Err e.
Proof.
  intros P A L N T [re Re] Kc. unfold chain_results. destruct (add_v_re_22 f h) as [h'|e] eqn:E; [|cbn; eauto]. cbn [bind].
  destruct (posterior K links (f_vary f) (h_flat h')) as [p|e] eqn:Ep; [|cbn; eauto]. exfalso.
  destruct (posterior_inv _ _ _ _ _ Ep) as (best & Pk & _). destruct (peaks_spec _ _ _ Pk) as [_ H].
  destruct (derive _ _ _ E) as (a & Ea & D). rewrite (abs_off f h A) in Ea. injection Ea as <-.
  destruct D as (_ & C & _ & _ & D & _). set (d := cols (h_flat h)) in *.
  destruct (H (d + 2)%nat _ (cols_nth (h_flat h') (d + 2) ltac:(lia))) as (_ & _ & b & _ & Kb).
  destruct (Kc (col (h_flat h') (d + 2)) s) as [e Ke]; [|congruence].
  intros x I. unfold col in I. apply in_map_iff in I. destruct I as (k & <- & _).
    destruct (D k) as (v & Cv & Lv & _ & _ & D3 & _). rewrite D3. destruct Cv as [V1 V2].
    assert (I2 : (2 < length (f_theta f))%nat) by (apply nth_error_Some; congruence).
    destruct (V2 2%nat I2) as [_ X]. specialize (X N). rewrite T in X.
    rewrite P, Re. destruct v as [|v0 [|v1 [|v2 v]]]; try discriminate. cbn in X. injection X as ->. cbn. f_equal. ring.
Qed.

(** A dispersion of 50 held fixed; a density estimate that rejects constant samples. *)
Definition ex_reject : kde := mkKde
  (fun c => if forallb (fun y => feqb y (lnth c 0)) c then Err RuntimeError else Ok (lnth c 0)) (fun _ i => Ok i).
Lemma reject_constant c x : (forall y, In y c -> y = Fin x) -> exists e, k_one ex_reject c = Err e.
Proof.
  intros H. exists RuntimeError. cbn [ex_reject k_one]. replace (forallb (fun y => feqb y (lnth c 0)) c) with true; [reflexivity|].
  symmetry. apply forallb_forall. intros y I. destruct c as [|z c]; [destruct I|].
  rewrite (H y I). unfold lnth. cbn [nth]. rewrite (H z (or_introl eq_refl)). cbn. now apply Reqb_true.
Qed.
Lemma ex_fixed : (exists h', add_v_re_22 (ex_fit false false) (ex_chain 2) = Ok h') /\
  exists e, chain_results ex_reject None (ex_fit false false) (ex_chain 2) = Err e.
Proof.
  split; [apply derive_ok; try reflexivity; cbn; lia|].
  eapply fixed_dispersion with (s := 50); try reflexivity.
  - unfold free. cbn. discriminate.
  - exists 1. reflexivity.
  - exact reject_constant.
Qed.

(** Summaries of three samples. *)
Lemma ex_posterior : exists p, posterior ex_kde None [true; true] ex_flat = Ok p /\
  p_best p = [Fin 1; Fin 1] /\ p_fit p = [Fin 1; Fin 1] /\ p_opp p = [Fin 0; Fin 0] /\ spans (15865/100000) (84135/100000) ex_flat (p_best p) (p_err1 p) 0.
Proof.
  assert (X : exists p, posterior ex_kde None [true; true] ex_flat = Ok p) by (unfold posterior; cbn [ex_flat cols seq map]; rewrite !ex_col; cbn; eauto).
  destruct X as [p E]. exists p. split; auto.
  assert (B : p_best p = [Fin 1; Fin 1]).
  { unfold posterior in E. cbn [ex_flat cols seq map] in E. rewrite !ex_col in E. cbn in E. now injection E as <-. }
  destruct (summaries _ _ _ _ _ E ltac:(cbn; lia)) as (_ & R & _ & S & F).
  split; auto. split; [rewrite F, B; reflexivity|]. split.
  - assert (O : forall j, (j < 2)%nat -> nth_error (p_opp p) j = Some (Fin 0)).
    { intros j Hj. destruct (S j Hj) as (lo2 & lo1 & hi1 & hi2 & _ & _ & _ & _ & _ & _ & _ & b & Hb & _ & o & O1 & _ & O2).
      rewrite O1. do 2 f_equal. rewrite B in Hb. assert (b = Fin 1) by (destruct j as [|[|j]]; [injection Hb as <-; auto|injection Hb as <-; auto|lia]).
      rewrite (O2 1 H). unfold rcol. cbn [ex_flat rows seq map at2 val filter INR].
      destruct (Rlt_dec (1 * 0) 0); [lra|]. destruct (Rlt_dec (1 * 1) 0); [lra|]. destruct (Rlt_dec (1 * (1 + 1)) 0); [lra|]. cbn. field. }
    destruct (posterior_inv _ _ _ _ _ E) as (_ & _ & _ & _ & _ & _ & Op & _).
    assert (L : length (p_opp p) = 2%nat) by (rewrite Op; unfold opposite; rewrite mapi_length, B; reflexivity).
    pose proof (O 0%nat ltac:(lia)) as O0. pose proof (O 1%nat ltac:(lia)) as O1.
    destruct (p_opp p) as [|x [|y [|z l]]]; try discriminate. cbn in O0, O1. congruence.
  - destruct (S 0%nat ltac:(cbn; lia)) as (lo2 & lo1 & hi1 & hi2 & Q1 & Q2 & _ & _ & _ & _ & _ & b & Hb & Er & _).
    destruct (Er eq_refl) as (_ & E1 & _). exists lo1, hi1, b. auto.
Qed.

(** The dispersion profile must have one parameter for absvalsigma. *)
Lemma abs_one_parameter f h h' : add_v_re_22 f h = Ok h' -> f_abs f = true -> kp_nd (f_prof f) = 1%nat.
Proof.
  intros E A. destruct (Nat.eq_dec (kp_nd (f_prof f)) 1) as [|N]; auto. exfalso.
  rewrite (abs_other f h A N) in E. discriminate.
Qed.

(** Columns and names when the chain has the free parameters. *)
Lemma derived_columns f h h' : add_v_re_22 f h = Ok h' -> f_abs f = false -> derived f h h' /\
  (length (f_names f) = length (f_vary f) -> cols (h_flat h) = nfree (f_vary f) -> length (h_names h') = cols (h_flat h')).
Proof.
  intros E A. split; [|intros L C; now apply (names_match f h)].
  destruct (derive _ _ _ E) as (a & Ea & D). rewrite (abs_off f h A) in Ea. now injection Ea as <-.
Qed.

Lemma abs_derived f h h' : add_v_re_22 f h = Ok h' -> f_abs f = true -> free (f_vary f) (kp_nv (f_prof f)) ->
  let c := rank (f_vary f) (kp_nv (f_prof f)) in
  exists a, rows (h_flat a) = rows (h_flat h) /\ cols (h_flat a) = cols (h_flat h) /\
   (forall k j, at2 (h_flat a) k j = (if Nat.eqb j c then fabs (at2 (h_flat h) k j) else at2 (h_flat h) k j)) /\ derived f a h'.
Proof.
  intros E A F c. destruct (derive _ _ _ E) as (a & Ea & D). exists a.
  destruct (abs_free f h a Ea A F) as (_ & _ & R & C & X1 & X2 & X3 & X4). fold c in X1, X2, X3, X4.
  split; auto. split; auto. split; auto. intros k j. destruct (Nat.eqb_spec j c) as [->|N]; auto.
Qed.

Lemma ex_abs : exists h', add_v_re_22 (ex_fit true true) (ex_chain 3) = Ok h' /\ 
  at2 (h_flat h') 1 2 = Fin 101 /\ at2 (h_flat h') 1 0 = Fin (-101).
Proof.
  assert (X : exists h', add_v_re_22 (ex_fit true true) (ex_chain 3) = Ok h') by (unfold add_v_re_22; cbn; eauto).
  destruct X as [h' E]. exists h'. split; auto. destruct (abs_kept _ _ _ E eq_refl eq_refl) as [K _]. 
  cbn [ex_fit f_vary f_prof fiducial kp_nv rank Nat.add] in K. split.
  - rewrite K by (cbn; lia). cbn. f_equal. replace (-100 - 1) with (-(101)) by lra. rewrite Rabs_Ropp. apply Rabs_right. lra.
  - rewrite K by (cbn; lia). cbn. f_equal. lra.
Qed.
