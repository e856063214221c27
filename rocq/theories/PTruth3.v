(* Proofs: what a noise-free observation does not settle, and concrete cases. *)
From Coq Require Import Reals Lra List Bool Arith ZArith Lia.
From Verif Require MProf PProf.
From Verif Require Import PyFloat PyBase Arr PyNum MParams MKernels MAper2D SParams SKernels SAper2D SAper1D SLine SLos SReach STruth PParams PKernels PData PAper2D PAper2DHist PAper2DTop PAper2DOk PAper2DVal PAper2DEx PLos PReach PReach2 PTruth PTruth2.
Import ListNotations.
Local Open Scope R_scope.

Lemma tot_pos n f : (0 < n)%nat -> (forall i, 0 < f i) -> 0 < tot n f.
Proof. intros N H. destruct n as [|n]; [lia|]. clear N. induction n as [|n IH]; cbn [tot] in *; [specialize (H 0%nat); lra|specialize (H (S n)); lra]. Qed.
Lemma row_pos c nx dx m0 i f : fills_slit c nx dx -> 0 < i_slit (c_ins c) -> (0 < g_rows (c_gal c))%nat -> (0 < o_nsub (c_opt c))%nat -> (forall p, 0 < f p) -> 0 < row_sum c nx dx m0 i f.
Proof.
  intros (S1 & D & _) SP G N H. assert (NX : (0 < nx)%nat). { destruct nx; [cbn in S1; lra|lia]. }
  unfold row_sum, over_row. apply Rmult_lt_0_compat; [apply Rmult_lt_0_compat; lra|].
  apply tot_pos; [exact N|]. intros s. apply tot_pos; [exact NX|]. intros k. apply tot_pos; [|intros o; apply H]. lia.
Qed.

(* an evaluation with given parameters is what make_model does on a new object *)
Lemma image_make c th m k tf : image_is c th m -> fresh k -> k_noscale k = true -> length tf = nfree (k_vary k) ->
  update_parameters (k_theta k) (k_vary k) tf = (th, Ok tt) ->
  exists k1, km_make c tf k = (k1, Ok tt) /\ k_model k1 = Some m /\ k_theta k1 = th.
Proof.
  intros (a0 & b & Es & Eb & Em) F NS L U. unfold fresh in F. unfold km_make. rewrite n_free_param_nfree, L, Nat.eqb_refl. cbn [negb]. rewrite U. cbn [k_aper k_stamp]. rewrite F.
  unfold aper_new. rewrite Es, Eb. unfold store_model. rewrite Em. cbn [k_noscale]. rewrite NS. eexists. split; [reflexivity|]. split; reflexivity.
Qed.

(* a face-on disc: every rotation speed fits *)
Definition f_th (va : R) : list fl := [Fin va; Fin (1/2); Fin 50; Fin 0; Fin 1].
Definition f_vary : list bool := [true; false; false; false; false].
Definition f_km : kinmodel := mkkm (f_th 200) f_vary true None None NoStamp.
Definition f_kf : kinmodel := mkkm (f_th 100) f_vary false None None NoStamp.
Definition f_spec (t : nat) : R := spectrum [6565] [1] 1 0 50 (nth t y_wide 0).
Definition f_data : data2 := findata 3 4 (fun _ t => f_spec t) (fun _ _ => 1) (fun _ _ => 1) (fun _ _ => true) [0%nat; 1%nat; 2%nat; 3%nat].
Lemma f_disc va : plain_disc (y_wide_cfg 1) (f_th va) y_wide 30 1 0 1 1 [6565] [1] (fun r _ => 2 / PI * va * atan (r / (1/2))) (fun r _ => exp (- r)).
Proof.
  unfold plain_disc. split.
  { unfold well_posed. cbn. repeat split; try lia; try lra; try discriminate; auto.
    intros i j H. destruct i as [|[|[|[|i]]]], j as [|[|[|[|j]]]]; cbn in *; try lia; lra. }
  split; [repeat split|]. repeat (split; [reflexivity|]). split; [lra|]. split; [lra|].
  split; [cbn; f_equal; lra|]. split; [reflexivity|]. split; [lra|]. split; [reflexivity|]. split; [reflexivity|].
  split; [intros x [<-|[]]; lra|]. split; [|reflexivity]. intros r h. cbn [y_wide_cfg c_prof y_prof p_nvel p_vel f_th firstn]. apply PProf.vel_Fin. lra.
Qed.
Lemma f_image va : exists k1 m A, km_make (y_wide_cfg 1) [Fin va] f_km = (k1, Ok tt) /\ k_model k1 = Some m /\ k_theta k1 = f_th va /\
  noise_free 3 4 (fun _ t => f_spec t) [0%nat; 1%nat; 2%nat; 3%nat] A m.
Proof.
  assert (Z : dispersion_is (y_wide_cfg 1) (f_th va) (fun _ _ => 50)) by (intros r h; cbn; split; [f_equal; lra|lra]).
  destruct (no_rotation _ _ _ _ _ _ _ _ _ _ _ _ _ (f_disc va) Z (or_introl eq_refl)) as (m & inc & n & nx & dx & E1 & E2 & E3 & E4 & E).
  destruct (image_make (y_wide_cfg 1) (f_th va) m f_km [Fin va] E1 eq_refl eq_refl eq_refl eq_refl) as (k1 & K1 & K2 & K3).
  exists k1, m, (fun i => / row_sum (y_wide_cfg 1) nx dx 1 i (fun p => exp (- from_axis n p))). split; [exact K1|]. split; [exact K2|]. split; [exact K3|].
  destruct (history_shape (y_wide_cfg 1) f_km k1 eq_refl (h_start _ _ _ _ K1)) as (m' & M1 & M2 & M3). rewrite K2 in M1. injection M1 as <-. split; [exact M2|]. split; [exact M3|].
  intros i j Hi Hj. eexists. split; [apply E; cbn; lia|]. intros _. fold (f_spec j).
  assert (P : 0 < row_sum (y_wide_cfg 1) nx dx 1 i (fun p => exp (- from_axis n p))) by (apply row_pos; [exact E4|cbn; lra|cbn; lia|cbn; lia|intros; apply exp_pos]).
  field. lra.
Qed.
Lemma f_usable : usable 3 4 (fun _ _ => 1) (fun _ _ => 1) (fun _ _ => true) [0%nat; 1%nat; 2%nat; 3%nat].
Proof.
  split; [intros c H; cbn in H; lia|]. intros i j Hi Hj. split; [lra|]. intros _. split; [lra|]. cbn. lia.
Qed.
Lemma f_fixed : offsets_fixed f_kf.
Proof. split; [reflexivity|]. split; [cbn; lia|]. intros i Hi. cbn in Hi. destruct i as [|[|[|[|[|i]]]]]; cbn; try lia; try discriminate. destruct i; discriminate. Qed.
Lemma f_start : exists k, history (observed f_data (y_wide_cfg 1)) f_kf k.
Proof.
  destruct (f_image 200) as (k1 & m & A & K1 & K2 & K3 & N).
  destruct (make_inv _ _ f_km k1 eq_refl K1) as (a & m' & st & _ & U & X & M & Q). cbn [k_noscale f_km] in Q. rewrite K2 in Q. injection Q as <-.
  destruct (scale_truth _ _ _ _ _ _ _ _ _ f_usable N) as (m2 & Sc & _).
  destruct (make_intro (observed f_data (y_wide_cfg 1)) [Fin 200] f_kf (k_theta k1) a m st m2 eq_refl eq_refl eq_refl) as (k & E & _); [rewrite K3; reflexivity|exact X|exact M|exact Sc|].
  exists k. exact (h_start _ _ _ _ E).
Qed.
Lemma f_truth va k : history (observed f_data (y_wide_cfg 1)) f_kf k ->
  exists k2 m2 L, km_llike (observed f_data (y_wide_cfg 1)) k [Fin va] = (k2, Ok (Fin L)) /\ k_model k2 = Some m2 /\ model_chisq f_data m2 = Fin 0 /\
    (forall i j, (i < 3)%nat -> (j < 4)%nat -> true = true -> at2 m2 i j = Fin (f_spec j)) /\
    forall tf' k3 v, km_llike (observed f_data (y_wide_cfg 1)) k tf' = (k3, Ok v) -> at_most v L /\
      (v = Fin L -> exists m3, k_model k3 = Some m3 /\ forall i j, (i < 3)%nat -> (j < 4)%nat -> true = true -> 1 <> 0 -> at2 m3 i j = Fin (f_spec j)).
Proof.
  intros H. destruct (f_image va) as (k1 & m & A & K1 & K2 & K3 & N).
  refine (truth (y_wide_cfg 1) 3 4 (fun _ t => f_spec t) (fun _ _ => 1) (fun _ _ => 1) (fun _ _ => true) [0%nat; 1%nat; 2%nat; 3%nat] A f_km [Fin va] k1 m f_kf [Fin va] k
    eq_refl eq_refl K1 K2 f_usable N f_fixed eq_refl eq_refl eq_refl eq_refl _ H). rewrite K3. reflexivity.
Qed.
Lemma not_unique : exists c kf L, offsets_fixed kf /\ fresh kf /\ k_noscale kf = false /\ k_vary kf = [true; false; false; false; false] /\
  (exists k, history c kf k) /\
  forall k va, history c kf k -> exists k2 m2, km_llike c k [Fin va] = (k2, Ok (Fin L)) /\ k_model k2 = Some m2 /\ model_chisq (g_data (c_gal c)) m2 = Fin 0.
Proof.
  destruct f_start as (k0 & H0). destruct (f_truth 0 k0 H0) as (kz & mz & L & E0 & _ & _ & _ & B0).
  exists (observed f_data (y_wide_cfg 1)), f_kf, L. split; [exact f_fixed|]. split; [reflexivity|]. split; [reflexivity|]. split; [reflexivity|]. split; [eauto|].
  intros k va H. destruct (f_truth va k H) as (k2 & m2 & L' & E & M & C & _ & B). exists k2, m2. split; [|split; [exact M|exact C]].
  assert (X0 := proj1 (llike_fresh _ _ _ _ f_fixed eq_refl H _ _) E). pose proof (proj2 (llike_fresh _ _ _ _ f_fixed eq_refl H0 _ _) X0) as E'.
  destruct (B0 _ _ _ E') as ([Q|[Q|(x & Q & Hx)]] & _); try discriminate. injection Q as <-.
  apply (llike_fresh _ _ k0 [Fin 0] f_fixed eq_refl H0) in E0. apply (llike_fresh _ _ k [Fin 0] f_fixed eq_refl H) in E0.
  destruct (B _ _ _ E0) as ([Q|[Q|(x & Q & Hy)]] & _); try discriminate. injection Q as <-. rewrite E. do 3 f_equal. lra.
Qed.

(* a free redshift *)
Definition r_F (i t : nat) : R := if Nat.eqb t 0 then 1 else 0.
Definition r_data : data2 := findata 1 2 r_F (fun _ _ => 1) (fun _ _ => 1) (fun _ _ => true) [0%nat; 1%nat].
Definition r_kf : kinmodel := mkkm (w_th 0) [false; false; true] false None None NoStamp.
Lemma r_usable : usable 1 2 (fun _ _ => 1) (fun _ _ => 1) (fun _ _ => true) [0%nat; 1%nat].
Proof. split; [intros c H; cbn in H; lia|]. intros i j Hi Hj. split; [lra|]. intros _. split; [lra|]. cbn. lia. Qed.
Lemma r_disc z : 1 + z <> 0 -> plain_disc w_cfg (w_th z) [1; 2] 0 1 0 0 z [1] [1] (fun _ _ => 0) (fun _ _ => 1).
Proof.
  intros Z. split; [apply w_posed|]. split; [exact w_unbl|]. repeat (split; [reflexivity|]). split; [lra|]. split; [lra|].
  split; [cbn; f_equal; lra|]. split; [reflexivity|]. split; [exact Z|]. split; [reflexivity|]. split; [reflexivity|]. split; [intros x [<-|[]]; lra|]. split; reflexivity.
Qed.
Lemma r_image z : z = 0 \/ z = 1 -> exists m A, image_is w_cfg (w_th z) m /\ 0 < A /\ at2 m 0 0 = Fin (if Reqb z 0 then A else 0) /\ at2 m 0 1 = Fin (if Reqb z 0 then 0 else A).
Proof.
  intros Hz. assert (Z : no_dispersion w_cfg (w_th z)) by (intros r h; reflexivity).
  destruct (narrow_no_rotation _ _ _ _ _ _ _ _ _ _ _ _ (r_disc z ltac:(destruct Hz; lra)) Z (or_introl eq_refl)) as (m & inc & n & nx & dx & best & E1 & E2 & E3 & E4 & E5 & E).
  set (A := row_sum w_cfg nx dx 0 0 (fun _ => 1)).
  assert (P : 0 < A) by (apply row_pos; [exact E4|cbn; lra|cbn; lia|cbn; lia|intros; lra]).
  exists m, A. split; [exact E1|]. split; [exact P|].
  assert (B : best (1 * (1 + z) * (1 + 0 / light_speed)) = if Reqb z 0 then 0%nat else 1%nat).
  { replace (1 * (1 + z) * (1 + 0 / light_speed)) with (1 + z) by (unfold light_speed; field). destruct (E5 (1 + z)) as (B1 & B2 & _). cbn [length] in B1.
    destruct (Reqb z 0) eqn:Q.
    - apply Reqb_true in Q. subst z. specialize (B2 0%nat ltac:(cbn; lia)). destruct (best (1 + 0)) as [|[|b]]; [reflexivity| |lia]. cbn [nth] in B2. revert B2. unfold Rabs. repeat destruct (Rcase_abs _); lra.
    - apply Reqb_false in Q. destruct Hz as [Hz|Hz]; [contradiction|]. subst z. specialize (B2 1%nat ltac:(cbn; lia)). destruct (best (1 + 1)) as [|[|b]]; [|reflexivity|lia]. cbn [nth] in B2. revert B2. unfold Rabs. repeat destruct (Rcase_abs _); lra. }
  assert (V0 := E 0%nat 0%nat ltac:(cbn; lia) ltac:(cbn; lia)). assert (V1 := E 0%nat 1%nat ltac:(cbn; lia) ltac:(cbn; lia)). cbv beta in V0, V1. fold A in V0, V1.
  unfold narrow in V0, V1. cbn [combine map fold_right fst snd] in V0, V1. rewrite B in V0, V1. rewrite V0, V1. destruct (Reqb z 0); cbn [Nat.eqb]; split; f_equal; ring.
Qed.
(* whether a parameter is free does not matter to an update with given values *)
Lemma update_vary c th v v' ns a m st : k_model (fst (km_update_aper c (mkkm th v ns a m st))) = k_model (fst (km_update_aper c (mkkm th v' ns a m st))) /\
  snd (km_update_aper c (mkkm th v ns a m st)) = snd (km_update_aper c (mkkm th v' ns a m st)).
Proof.
  unfold km_update_aper. cbn [k_aper k_theta k_vary k_noscale k_model]. destruct a as [a|]; [|auto]. destruct (aper_update c th a) as [a' [[]|e]]; [|auto].
  unfold store_model. cbn [k_noscale k_theta k_vary k_aper k_model k_stamp]. destruct (a_model a') as [x|]; [|auto]. destruct ns; [auto|]. destruct (scale_model _ x); auto.
Qed.

Definition r_c : cfg := observed r_data w_cfg.
Lemma r_shape z m : image_is w_cfg (w_th z) m -> rows m = 1%nat /\ cols m = 2%nat.
Proof.
  intros E. set (k0 := mkkm (w_th z) [false; false; false] true None None NoStamp). assert (F : fresh k0) by reflexivity.
  destruct (image_make w_cfg (w_th z) m k0 [] E F eq_refl eq_refl eq_refl) as (k1 & K1 & K2 & _).
  destruct (history_shape w_cfg k0 k1 F (h_start _ _ _ _ K1)) as (m' & M1 & M2 & M3). rewrite K2 in M1. injection M1 as <-. split; [exact M2|exact M3].
Qed.
(* the scaled image of a new object, whichever parameters are free *)
Lemma r_make z : z = 0 \/ z = 1 -> exists a m m2 A,
  (forall v tf th0, length tf = nfree v -> update_parameters th0 v tf = (w_th z, Ok tt) -> km_make r_c tf (mkkm th0 v false None None NoStamp) = (mkkm (w_th z) v false (Some a) (Some m2) (a_stamp a), Ok tt)) /\
  rows m = 1%nat /\ cols m = 2%nat /\ 0 < A /\ at2 m 0 0 = Fin (if Reqb z 0 then A else 0) /\ at2 m 0 1 = Fin (if Reqb z 0 then 0 else A) /\ scale_model r_data m = Ok m2.
Proof.
  intros Hz. destruct (r_image z Hz) as (m & A & E & P & V0 & V1). destruct (r_shape z m E) as (R & C).
  assert (Sc : exists m2, scale_model r_data m = Ok m2).
  { unfold scale_model. cbn [wh_nosky r_data findata flux ferr fin2 cols rows]. rewrite R, C. cbn. eexists. reflexivity. }
  destruct Sc as (m2 & Sc). pose proof E as (a0 & b & Es & Eb & Em). exists b, m, m2, A. split; [|auto 8].
  intros v tf th0 L U. unfold km_make. cbn [k_vary k_theta k_aper k_noscale k_model k_stamp]. rewrite n_free_param_nfree, L, Nat.eqb_refl. cbn [negb]. rewrite U.
  change (aper_new r_c (w_th z) NoStamp) with (aper_new w_cfg (w_th z) NoStamp). unfold aper_new. rewrite Es, Eb. unfold store_model. rewrite Em. cbn [k_noscale k_theta k_vary k_aper k_stamp].
  change (g_data (c_gal r_c)) with r_data. rewrite Sc. reflexivity.
Qed.
Lemma r_other m m2 : rows m = 1%nat -> cols m = 2%nat -> at2 m 0 0 = Fin 0 -> (exists A, at2 m 0 1 = Fin A) -> scale_model r_data m = Ok m2 -> rows m2 = 1%nat /\ cols m2 = 2%nat /\ at2 m2 0 0 = Fin 0.
Proof.
  intros R C V0 (A & V1). unfold scale_model. cbn [wh_nosky r_data findata flux ferr fin2 cols rows]. rewrite R, C. cbn [forallb Nat.ltb Nat.leb andb negb Nat.eqb]. intros Q. injection Q as <-. cbn [rows cols at2].
  split; [reflexivity|]. split; [reflexivity|]. rewrite V0.
  change (mkdata _ _ _ _ _) with r_data. unfold r_data.
  rewrite (scale_ratio_val 1 2 r_F (fun _ _ => 1) (fun _ _ => 1) (fun _ _ => true) [0%nat; 1%nat] m (fun t => if Nat.eqb t 0 then 0 else A) 0); [cbn [fmul]; f_equal; ring|intros; lra|].
  intros t [<-|[<-|[]]]; [exact V0|exact V1].
Qed.
Lemma redshift_missed : exists c kf tf k0 m0 L k, fresh kf /\ k_noscale kf = false /\
  km_make c tf kf = (k0, Ok tt) /\ k_model k0 = Some m0 /\ model_llike (g_data (c_gal c)) m0 = Fin L /\ model_chisq (g_data (c_gal c)) m0 = Fin 0 /\
  history c kf k /\ exists k2 v, km_llike c k tf = (k2, Ok v) /\ at_most v L /\ v <> Fin L.
Proof.
  destruct (r_make 0 (or_introl eq_refl)) as (a & m & m2 & A & K & R & C & P & V0 & V1 & Sc).
  destruct (r_make 1 (or_intror eq_refl)) as (b & n & n2 & B & J & Rn & Cn & Pn & W0 & W1 & Sn).
  assert (Q0 : Reqb 0 0 = true) by (apply Reqb_true; reflexivity). assert (Q1 : Reqb 1 0 = false) by (apply Reqb_false; lra). rewrite Q0 in V0, V1. rewrite Q1 in W0, W1.
  destruct (r_other n n2 Rn Cn W0 (ex_intro _ B W1) Sn) as (R2 & C2 & Z2).
  assert (N : noise_free 1 2 r_F [0%nat; 1%nat] (fun _ => / A) m).
  { split; [exact R|]. split; [exact C|]. intros i j Hi Hj. assert (i = 0)%nat by lia. subst i. destruct j as [|[|j]]; [| |lia]; eexists; (split; [eassumption|]); intros _; unfold r_F; cbn [Nat.eqb]; [field; lra|ring]. }
  destruct (scale_truth _ _ _ _ _ _ _ _ _ r_usable N) as (m2' & Sc' & Rm & Cm & Vm). change (findata _ _ _ _ _ _ _) with r_data in Sc'. rewrite Sc in Sc'. injection Sc' as <-.
  destruct (llike_exact _ _ _ _ _ _ _ m2 r_usable Rm Cm Vm) as (LL & CC).
  specialize (K [false; false; true] [Fin 0] (w_th 0) eq_refl eq_refl). pose proof (J [false; false; true] [Fin 1] (w_th 0) eq_refl eq_refl) as J1. specialize (J [false; false; false] [] (w_th 1) eq_refl eq_refl).
  fold r_kf in K, J1. set (k := mkkm (w_th 1) [false; false; true] false (Some b) (Some n2) (a_stamp b)) in *.
  exists r_c, r_kf, [Fin 0], (mkkm (w_th 0) [false; false; true] false (Some a) (Some m2) (a_stamp a)), m2, (best_llike 1 2 (fun _ _ => 1) (fun _ _ => true)), k.
  split; [reflexivity|]. split; [reflexivity|]. split; [exact K|]. split; [reflexivity|]. split; [exact LL|]. split; [exact CC|]. split; [exact (h_start _ _ _ _ J1)|].
  (* the update at the value the object was made with *)
  set (kx := mkkm (w_th 1) [false; false; false] false None None NoStamp) in *. assert (FX : fresh kx) by reflexivity.
  assert (OX : offsets_fixed kx). { split; [reflexivity|]. split; [cbn; lia|]. intros i _. destruct i as [|[|[|i]]]; cbn; try discriminate. destruct i; discriminate. }
  destruct (history_independent r_c kx _ (CUpdate []) OX FX (h_start _ _ _ _ J)) as (H1 & H2). cbn [run args] in H1, H2. rewrite J in H1, H2. cbn [snd fst] in H1, H2.
  specialize (H2 H1).
  change (km_update r_c [] (mkkm (w_th 1) [false; false; false] false (Some b) (Some n2) (a_stamp b))) with (km_update_aper r_c (mkkm (w_th 1) [false; false; false] false (Some b) (Some n2) (a_stamp b))) in H1, H2.
  destruct (update_vary r_c (w_th 1) [false; false; true] [false; false; false] false (Some b) (Some n2) (a_stamp b)) as (Y1 & Y2). rewrite H2 in Y1. rewrite H1 in Y2.
  change (km_update_aper r_c (mkkm (w_th 1) [false; false; true] false (Some b) (Some n2) (a_stamp b))) with (km_update r_c [Fin 1] k) in Y1, Y2.
  destruct (update_reads_profiles r_c k b [Fin 0] [Fin 1] eq_refl eq_refl eq_refl eq_refl) as (X1 & X2).
  { intros i Hi Hf. unfold free in Hf. cbn in Hi. assert (i = 0)%nat by lia. subst i. discriminate. }
  rewrite Y2 in X1. rewrite Y1 in X2. cbn [k_model] in X2. unfold km_llike. destruct (km_update r_c [Fin 0] k) as [k2 r]. cbn [fst snd] in X1, X2. subst r. rewrite X2.
  exists k2, (model_llike r_data n2). split; [reflexivity|]. split; [exact (llike_bound _ _ _ _ _ _ _ n2 r_usable R2 C2)|].
  intros T. pose proof (llike_tie _ _ _ _ _ _ _ n2 r_usable R2 C2 T 0%nat 0%nat ltac:(lia) ltac:(lia) eq_refl ltac:(lra)) as G. rewrite Z2 in G. unfold r_F in G. cbn [Nat.eqb] in G. injection G as G. lra.
Qed.

(* concrete cases *)
Lemma truth_example : exists k1 m A k, km_make (y_wide_cfg 1) [Fin 150] f_km = (k1, Ok tt) /\ k_model k1 = Some m /\ fresh f_km /\ k_noscale f_km = true /\
  usable 3 4 (fun _ _ => 1) (fun _ _ => 1) (fun _ _ => true) [0%nat; 1%nat; 2%nat; 3%nat] /\
  noise_free 3 4 (fun _ t => spectrum [6565] [1] 1 0 50 (nth t y_wide 0)) [0%nat; 1%nat; 2%nat; 3%nat] A m /\
  offsets_fixed f_kf /\ fresh f_kf /\ k_noscale f_kf = false /\ k_stamp f_kf = k_stamp f_km /\
  fst (update_parameters (k_theta f_kf) (k_vary f_kf) [Fin 150]) = k_theta k1 /\ history (observed f_data (y_wide_cfg 1)) f_kf k.
Proof.
  destruct (f_image 150) as (k1 & m & A & K1 & K2 & K3 & N). destruct f_start as (k & H). exists k1, m, A, k.
  split; [exact K1|]. split; [exact K2|]. split; [reflexivity|]. split; [reflexivity|]. split; [exact f_usable|]. split; [exact N|]. split; [exact f_fixed|].
  split; [reflexivity|]. split; [reflexivity|]. split; [reflexivity|]. split; [rewrite K3; reflexivity|exact H].
Qed.
Lemma posterior_example : log_prior (k_theta f_kf) (k_vary f_kf) [(Fin 0, Fin 1000); (Fin 0, Fin 1); (Fin 0, Fin 1); (Fin 0, Fin 1); (Fin 0, Fin 1)] [Fin 150] = Ok (Fin 0).
Proof.
  unfold log_prior. cbn. unfold between. cbn [fst snd]. unfold fleb, fltb.
  repeat match goal with |- context [Rltb ?x ?y] => let H := fresh in assert (H : Rltb x y = true) by (apply Rltb_true; lra); rewrite H; clear H end.
  repeat match goal with |- context [Rleb ?x ?y] => let H := fresh in assert (H : Rleb x y = true) by (apply Rleb_true; lra); rewrite H; clear H end.
  reflexivity.
Qed.
