(* Proofs: rows masked altogether have no influence on the likelihood, with or without row scaling. *)
From Coq Require Import Reals Lra Lia List Bool Arith ZArith.
From Verif Require Import PyFloat PyBase Arr PyNum MParams MKernels MAper2D MMock SParams SKernels SAper2D SMirror SBright STruth SFinite SNoise SBad SRows PKernels PKernels2 PData PAper2D PAper2DHist PMirror PTruth PTruth2 PLim3 PNoise PFinite PFinite2 PFinite3 PFinite4 PBad PAper2DTop PReach2.
Import ListNotations.
Local Open Scope R_scope.

Lemma used_dec p (ok : nat -> nat -> bool) i : used_row p ok i \/ forall j, (j < p)%nat -> ok i j = false.
Proof.
  destruct (existsb (fun j => ok i j) (seq 0 p)) eqn:E.
  - left. apply existsb_exists in E as (j & Hj & O). apply in_seq in Hj. exists j. split; [lia|exact O].
  - right. intros j Hj. destruct (ok i j) eqn:O; [|reflexivity]. rewrite <- E. symmetry. apply existsb_exists. exists j. split; [apply in_seq; lia|exact O].
Qed.

Section Data.
Variables (n p : nat) (F S W F' S' W' : nat -> nat -> R) (ok : nat -> nat -> bool) (cs : list nat).
Hypothesis Hc : cols_ok p cs.
Hypothesis HS : forall i j, (i < n)%nat -> (j < p)%nat -> S i j <> 0.
Hypothesis HS' : forall i j, (i < n)%nat -> (j < p)%nat -> S' i j <> 0.
Hypothesis Same : same_in_used_rows n p ok F S W F' S' W'.
Let d := findata n p F S W ok cs.
Let d' := findata n p F' S' W' ok cs.

(* the two images agree in the used rows, and both consist of numbers *)
Definition alike (m m' : arr2 fl) : Prop :=
  forall i j, (i < n)%nat -> (j < p)%nat -> isfinite (at2 m' i j) = true /\ (used_row p ok i -> at2 m i j = at2 m' i j).

Lemma scale_alike m0 m : rows m0 = n -> cols m0 = p -> scale_model d m0 = Ok m -> (forall i j, (i < n)%nat -> (j < p)%nat -> isfinite (at2 m i j) = true) ->
  exists m', scale_model d' m0 = Ok m' /\ alike m m'.
Proof.
  intros R C E N. unfold scale_model in *. cbn [d d' wh_nosky findata flux ferr fin2 cols rows] in *. rewrite R, C, (forallb_ltb p cs Hc), !Nat.eqb_refl in *. cbn [negb andb] in *.
  injection E as <-. cbn [at2] in N. eexists. split; [reflexivity|].
  assert (N0 : forall i j, (i < n)%nat -> (j < p)%nat -> at2 m0 i j = Fin (val (at2 m0 i j))).
  { intros i j Hi Hj. specialize (N i j Hi Hj). destruct (isfinite_Fin _ N) as (v & V). apply fmul_fin in V as ((x & ->) & _). reflexivity. }
  intros i j Hi Hj. cbn [at2].
  unfold d, d'.
  split.
  - rewrite (scale_ratio_val n p F' S' W' ok cs m0 (fun c => val (at2 m0 i c)) i); [|intros c Hcc; apply HS'; [exact Hi|now apply Hc]|intros c Hcc; apply N0; [exact Hi|now apply Hc]].
    rewrite (N0 i j Hi Hj). reflexivity.
  - intros U. f_equal. unfold scale_ratio. cbn [wh_nosky findata flux ferr fin2 at2].
    rewrite (map_ext_in (fun c => fdiv (fmul (Fin (F i c)) (at2 m0 i c)) (fsq (Fin (S i c)))) (fun c => fdiv (fmul (Fin (F' i c)) (at2 m0 i c)) (fsq (Fin (S' i c))))).
    2:{ intros c Hcc. destruct (Same i c Hi (Hc _ Hcc) U) as (-> & -> & _). reflexivity. }
    rewrite (map_ext_in (fun c => fdiv (fsq (at2 m0 i c)) (fsq (Fin (S i c)))) (fun c => fdiv (fsq (at2 m0 i c)) (fsq (Fin (S' i c))))).
    2:{ intros c Hcc. destruct (Same i c Hi (Hc _ Hcc) U) as (_ & -> & _). reflexivity. }
    reflexivity.
Qed.

Lemma llike_alike m m' : rows m = n -> cols m = p -> rows m' = n -> cols m' = p -> alike m m' -> isfinite (model_llike d m) = true -> model_llike d' m' = model_llike d m.
Proof.
  intros R C R' C' A L. assert (P := proj1 (finite_iff _ _) L). rewrite R, C in P. unfold model_llike. f_equal. unfold sum2. cbn [rows cols at2]. rewrite R, C, R', C'.
  apply fsumn_ext. intros i Hi. apply fsumn_ext. intros j Hj. destruct (A i j Hi Hj) as (N & U).
  destruct (P i j Hi Hj) as (f & e & k & w & y & _ & _ & _ & _ & _ & Y). destruct (isfinite_Fin _ N) as (y' & Y').
  cbn [d d' smask fwt flux ferr findata fin2 at2]. rewrite Y, Y'. destruct (used_dec p ok i) as [Us|Us].
  - destruct (Same i j Hi Hj Us) as (-> & -> & ->). specialize (U Us). rewrite Y, Y' in U. injection U as ->. reflexivity.
  - rewrite (Us j Hj). pose proof (term_fine (F' i j) (S' i j) 0 (W' i j) y' (HS' i j Hi Hj)) as T'. pose proof (term_fine (F i j) (S i j) 0 (W i j) y (HS i j Hi Hj)) as T.
    apply isfinite_Fin in T as (t & T). apply isfinite_Fin in T' as (t' & T'). rewrite T, T'. apply f_equal.
    pose proof T as T2. pose proof T' as T2'. apply fmul_fin in T2 as (_ & (z & Z)). apply fmul_fin in T2' as (_ & (z' & Z')). rewrite Z in T. rewrite Z' in T'. cbn [fmul] in T, T'. injection T as T. injection T' as T'. lra.
Qed.

Lemma masked_rows_in c k0 k k' tf k2 x : n = img_rows c -> p = length (g_wave (c_gal c)) -> offsets_fixed k0 -> fresh k0 ->
  history (observed d c) k0 k -> history (observed d' c) k0 k' -> km_llike (observed d c) k tf = (k2, Ok (Fin x)) ->
  exists k2' m m', km_llike (observed d' c) k' tf = (k2', Ok (Fin x)) /\ k_model k2 = Some m /\ k_model k2' = Some m' /\
    forall i j, (i < n)%nat -> (j < p)%nat -> used_row p ok i -> at2 m i j = at2 m' i j.
Proof.
  intros Hn Hp O Fr H H' E. destruct (llike_shape _ _ _ _ _ _ O Fr H E) as (m & M & R & C).
  change (img_rows (observed d c)) with (img_rows c) in R. change (g_wave (c_gal (observed d c))) with (g_wave (c_gal c)) in C. rewrite <- Hn in R. rewrite <- Hp in C.
  apply (llike_fresh _ _ _ _ O Fr H) in E as (m1 & E & M1 & V). rewrite M in M1. injection M1 as <-. change (g_data (c_gal (observed d c))) with d in V.
  assert (L : isfinite (model_llike d m) = true) by (rewrite <- V; reflexivity).
  assert (N : forall i j, (i < n)%nat -> (j < p)%nat -> isfinite (at2 m i j) = true).
  { intros i j Hi Hj. rewrite <- R in Hi. rewrite <- C in Hj. destruct (proj1 (finite_iff _ _) L i j Hi Hj) as (f & e & kk & w & y & _ & _ & _ & _ & _ & ->). reflexivity. }
  assert (X : exists k2' m', km_make (observed d' c) tf k0 = (k2', Ok tt) /\ k_model k2' = Some m' /\ alike m m').
  { unfold fresh in Fr. unfold km_make in E |- *. destruct (negb _); [discriminate|]. destruct (update_parameters _ _ _) as [th [[]|er]]; [|discriminate]. cbn [k_aper k_stamp] in E |- *. rewrite Fr in E |- *.
    rewrite new_data in E |- *. destruct (aper_new c th (k_stamp k0)) as [st [a|er]]; [|discriminate]. unfold store_model in E |- *. cbn [k_noscale k_theta k_vary k_aper k_stamp] in E |- *.
    destruct (a_model a) as [m0|]; [|discriminate]. destruct (k_noscale k0).
    - injection E as <-. cbn [k_model] in M. injection M as ->. eexists _, m. split; [reflexivity|]. split; [reflexivity|]. intros i j Hi Hj. split; [now apply N|reflexivity].
    - change (g_data (c_gal (observed d c))) with d in E. change (g_data (c_gal (observed d' c))) with d'. destruct (scale_model d m0) as [m1|] eqn:Sc; [|discriminate].
      injection E as <-. cbn [k_model] in M. injection M as ->.
      assert (R0 : rows m0 = n /\ cols m0 = p).
      { unfold scale_model in Sc. repeat (destruct (negb _); [discriminate|]). injection Sc as <-. split; [exact R|exact C]. }
      destruct (scale_alike m0 m (proj1 R0) (proj2 R0) Sc N) as (m' & Sc' & A). rewrite Sc'. eexists _, m'. split; [reflexivity|]. split; [reflexivity|exact A]. }
  destruct X as (k2' & m' & E' & M' & A). exists k2', m, m'.
  destruct (history_shape (observed d' c) k0 k2' Fr (h_start _ _ _ _ E')) as (y & Y1 & Y2 & Y3). rewrite M' in Y1. injection Y1 as <-.
  change (img_rows (observed d' c)) with (img_rows c) in Y2. change (g_wave (c_gal (observed d' c))) with (g_wave (c_gal c)) in Y3. rewrite <- Hn in Y2. rewrite <- Hp in Y3.
  split; [|split; [exact M|split; [exact M'|intros i j Hi Hj; now apply A]]].
  apply (llike_fresh _ _ _ _ O Fr H'). exists m'. split; [exact E'|]. split; [exact M'|]. rewrite V. symmetry. change (g_data (c_gal (observed d' c))) with d'. now apply llike_alike.
Qed.
End Data.
Lemma masked_rows n p F S W F' S' W' ok cs c k0 k k' tf k2 x : cols_ok p cs ->
  (forall i j, (i < n)%nat -> (j < p)%nat -> S i j <> 0) -> (forall i j, (i < n)%nat -> (j < p)%nat -> S' i j <> 0) ->
  same_in_used_rows n p ok F S W F' S' W' ->
  let c1 := observed (findata n p F S W ok cs) c in let c2 := observed (findata n p F' S' W' ok cs) c in
  n = img_rows c -> p = length (g_wave (c_gal c)) -> offsets_fixed k0 -> fresh k0 ->
  history c1 k0 k -> history c2 k0 k' -> km_llike c1 k tf = (k2, Ok (Fin x)) ->
  exists k2' m m', km_llike c2 k' tf = (k2', Ok (Fin x)) /\ k_model k2 = Some m /\ k_model k2' = Some m' /\
    forall i j, (i < n)%nat -> (j < p)%nat -> used_row p ok i -> at2 m i j = at2 m' i j.
Proof. intros Hc HS HS' Sm c1 c2. exact (masked_rows_in n p F S W F' S' W' ok cs Hc HS HS' Sm c k0 k k' tf k2 x). Qed.

(* example: the first row masked, with two different sets of values in it *)
Definition r_ok (i j : nat) : bool := negb (Nat.eqb i 0).
Definition r_data (v : R) : data2 := findata 3 4 (fun i _ => if Nat.eqb i 0 then v else 1) (fun _ _ => 1) (fun _ _ => 1) r_ok [0%nat; 1%nat; 2%nat; 3%nat].
Definition r_cfg (v : R) : cfg := observed (r_data v) (mock_cfg (x_mock 50) (x_mk 50) (r_data 0)).
Lemma r_start v : exists k, history (r_cfg v) x_kf k.
Proof.
  set (c := r_cfg v). destruct (eval_lit _ _ _ (x_shining 50 (r_data v) ltac:(lra))) as (m & (a0 & b & Es & Eb & Em) & R & C & N & _).
  change (mock_cfg (x_mock 50) (x_mk 50) (r_data v)) with c in Es, Eb, R.
  destruct (finite_scale 3 4 (fun i _ => if Nat.eqb i 0 then v else 1) (fun _ _ => 1) (fun _ _ => 1) r_ok [0%nat; 1%nat; 2%nat; 3%nat] m) as (m2 & Sc & _); [intros x Hx; cbn in Hx; lia|intros; lra|exact R|exact C|exact N|].
  assert (NW : aper_new c [Fin 200; Fin (1/2); Fin 50; Fin 0; Fin 1] NoStamp = (a_stamp b, Ok b)) by (unfold aper_new; now rewrite Es, Eb).
  destruct (make_intro c [Fin 200; Fin (1/2); Fin 50] x_kf _ b m _ m2 eq_refl eq_refl eq_refl eq_refl NW Em Sc) as (k & E & _).
  exists k. exact (h_start _ _ _ _ E).
Qed.
Lemma rows_example : exists k k' k2 x, history (r_cfg 5) x_kf k /\ history (r_cfg 7) x_kf k' /\ offsets_fixed x_kf /\ fresh x_kf /\ k_noscale x_kf = false /\
  km_llike (r_cfg 5) k [Fin 200; Fin (1/2); Fin 50] = (k2, Ok (Fin x)) /\
  same_in_used_rows 3 4 r_ok (fun i _ => if Nat.eqb i 0 then 5 else 1) (fun _ _ => 1) (fun _ _ => 1) (fun i _ => if Nat.eqb i 0 then 7 else 1) (fun _ _ => 1) (fun _ _ => 1) /\ used_row 4 r_ok 1.
Proof.
  destruct (r_start 5) as (k & H). destruct (r_start 7) as (k' & H'). exists k, k'.
  destruct (finite_fit (r_cfg 5) 3 4 (fun i _ => if Nat.eqb i 0 then 5 else 1) (fun _ _ => 1) (fun _ _ => 1) r_ok [0%nat; 1%nat; 2%nat; 3%nat] y_wide x_kf [Fin 200; Fin (1/2); Fin 50] [Fin 200; Fin (1/2); Fin 50; Fin 0; Fin 1] k) as (k2 & L & E);
    [reflexivity|reflexivity|reflexivity|intros x Hx; cbn in Hx; lia|intros; lra|exact x_fixed|reflexivity|reflexivity|reflexivity|exact (x_shining 50 (r_data 5) ltac:(lra))|exact H|].
  exists k2, L. split; [exact H|]. split; [exact H'|]. split; [exact x_fixed|]. split; [reflexivity|]. split; [reflexivity|]. split; [exact E|]. split.
  - intros i j Hi Hj (j' & _ & U). unfold r_ok in U. destruct (Nat.eqb i 0); [discriminate|]. auto.
  - exists 0%nat. split; [lia|reflexivity].
Qed.
