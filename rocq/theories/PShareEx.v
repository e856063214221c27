(* Concrete programs with several models: witnesses. *)
From Coq Require Import String Reals Lra List Bool Arith ZArith Lia.
From Verif Require Import PyFloat PyBase Arr PyNum MParams MKernels MAper2D MProf MPost MAttr MShare SParams SKernels SAper2D SShare PParams PAper2D PAper2DHist PAper2DGrid PAper2DShape PAper2DOk PAper2DVal PAper2DGeo PKernels PKernels2 PAper2DEx PProf PShareSt PShare.
Import ListNotations.
Local Open Scope R_scope.

(* one row, two wavelengths, a face-on galaxy with the fiducial light profile for n = 1, q0 = 1/2 and the given re *)
Definition s_gal : gal := mkgal (Fin 1) (Fin (1/2)) (Fin 0) 1 (map Fin [1; 2]) (Fin 0) [Fin 1] [Fin 1] w_data.
Definition s_prof (f : fl -> fl -> fl) : profs := mkprofs 0 1 (fun _ _ _ => Fin 0) (fun th _ _ => lnth th 0) f (fun _ _ => (Fin 1, Fin 0, Fin 1)).
Definition s_cfg (f : fl -> fl -> fl) : cfg := mkcfg s_gal w_ins w_opt (s_prof f).

Lemma s_posed f z : well_posed (s_cfg f) (w_th z) [1; 2].
Proof. unfold well_posed. cbn. repeat split; try lia; try lra; try discriminate; auto. apply incr12. Qed.
Lemma s_unbl f : unblurred (s_cfg f). Proof. repeat split. Qed.

Lemma s_image f v z : f (Fin (1/2)) (Fin 0) = Fin v -> z = 0 \/ z = 1 ->
  exists a0 b m, setup_calcs (s_cfg f) (w_th z) = Ok a0 /\ do_model_calcs (s_cfg f) a0 = (b, Ok tt) /\
  a_model b = Some m /\ at2 m 0 0 = Fin (v * (1 - z)).
Proof.
  intros Hf Hz. destruct (plain_image (s_cfg f) (w_th z) [1;2] (s_posed f z) (s_unbl f)) as (a0&b&g&w&cube&m&Hg&Es&Eb&Em&Rm&Cm&P1&P2&Ec&Ev).
  exists a0, b, m. repeat (split; [assumption|]).
  destruct (setup_fields _ _ _ _ Hg) as (F1&F2&F3&F4&F5&F6&F7&F8&F9&F10&F11&F12&F13&F14&F15&F16&F17&F18&(sh&F19&F20)&_).
  destruct (setup_cubes _ _ _ _ Hg) as (S1&_&S3&S4&S5&S6).
  cbn in F18, F19, F20, F4, F7, F9. injection F18 as Gz. injection F19 as <-.
  assert (NX1 : n_pix_x g = 1%nat).
  { rewrite F6. unfold slit_npix. cbn. destruct (Reqb (1 * (1 / 1)) 1) eqn:E; [reflexivity|]. apply Reqb_false in E. lra. }
  assert (Si : sini g = Fin 0).
  { rewrite S1. unfold sin_i. cbn. destruct (Rltb 1 (1/2)) eqn:E; [apply Rltb_true in E; lra|].
    unfold fdiv. destruct (Reqb (1 + - (1/2 * (1/2))) 0) eqn:E1; [apply Reqb_true in E1; lra|]. cbn.
    replace ((1 + - (1 * 1)) / (1 + - (1/2 * (1/2)))) with 0 by field.
    destruct (Rltb 0 0) eqn:E2; [apply Rltb_true in E2; lra|]. now rewrite sqrt_0. }
  assert (Ai : fasin (sini g) = Fin 0).
  { rewrite Si. cbn. destruct (Rleb (-1) 0) eqn:E1; [|apply Rleb_false in E1; lra].
    destruct (Rleb 0 1) eqn:E2; [|apply Rleb_false in E2; lra]. cbn. now rewrite asin_0. }
  assert (M0 : m0_fit g = Fin (0 + 0)) by (rewrite F20; reflexivity).
  assert (NZ1 : nZ g = 1%nat) by (rewrite F14, F5, F4; reflexivity).
  assert (NY1 : nY g = 1%nat) by (rewrite F13, F4, P2; reflexivity).
  assert (NX1' : nX g = 1%nat) by (rewrite F12, P1, NX1; reflexivity).
  destruct (x_grid _ _ _ _ Hg) as [_ X]. destruct (z_grid _ _ _ _ Hg) as [_ Z0].
  destruct (y_grid _ _ _ _ _ Hg M0) as [_ Y].
  specialize (X 0%nat ltac:(lia)). specialize (Y 0%nat ltac:(lia)). specialize (Z0 0%nat ltac:(lia)).
  rewrite NY1 in Y. cbn [Nat.eqb] in Y.
  assert (DY : delt_y g = 1) by (rewrite ?F7, ?F8, ?F9; cbn; field).
  assert (X1 : lnth (x_arr g) 0 = Fin 0) by (rewrite X; unfold xat; rewrite NX1'; cbn; f_equal; lra).
  assert (Z1 : lnth (z_arr g) 0 = Fin 0) by (rewrite Z0; unfold zat; rewrite NZ1; cbn; f_equal; lra).
  assert (Y1 : lnth (y_arr g) 0 = Fin (1/2)) by (rewrite Y; unfold true_y; rewrite DY, P2; cbn; f_equal; lra).
  assert (TR : transform_int_3d (Fin 0) (Fin (1/2)) (Fin 0) (Fin 0) (Fin 0) = (Fin 0, Fin (1/2), Fin 0)).
  { rewrite transform_Fin. unfold xi_, yi_, zi_. replace (0 * (PI/180)) with 0 by ring. rewrite sin_0, cos_0.
    repeat match goal with |- (_, _) = (_, _) => apply f_equal2 | |- Fin _ = Fin _ => apply f_equal end; field. }
  assert (R0 : at3 (r_cube g) 0 0 0 = Fin (1/2)).
  { rewrite S3, X1, Y1, Z1, Ai. change (g_dPA (c_gal (s_cfg f))) with (Fin 0). rewrite TR. cbn [fst snd].
    rewrite fsqrt_sumsq. f_equal. replace (0 * 0 + 1/2 * (1/2)) with (Rsqr (1/2)) by (unfold Rsqr; field). apply sqrt_Rsqr. lra. }
  assert (Y0 : at3 (yint g) 0 0 0 = Fin (1/2)).
  { rewrite S4, X1, Y1, Z1, Ai. change (g_dPA (c_gal (s_cfg f))) with (Fin 0). rewrite TR. reflexivity. }
  assert (ZI : at3 (zint g) 0 0 0 = Fin 0).
  { rewrite S5, X1, Y1, Z1, Ai. change (g_dPA (c_gal (s_cfg f))) with (Fin 0). rewrite TR. reflexivity. }
  rewrite Ev by (cbn; lia). change (o_nsub (c_opt (s_cfg f))) with 1%nat. rewrite NX1.
  assert (Z : forall y, fadd y (Fin 0) = y) by (intros []; cbn; auto; f_equal; ring).
  unfold fsumn at 1 2. cbn [seq map]. unfold fsum; cbn [fold_right]. rewrite !Z. cbn [Nat.mul Nat.add].
  cbv zeta in Ec. rewrite NZ1, NY1, NX1' in Ec.
  match type of Ec with add_sigma_collapse_z _ _ ?S _ _ _ _ _ _ _ _ _ _ _ _ = _ =>
    assert (HS : forall x, In x (flat_list3 S) -> x = Fin 0) end.
  { intros x Hx. apply in_flat_list3 in Hx. destruct Hx as (x1&x2&x3&_&_&_&->). reflexivity. }
  rewrite (collapse_zero_sigma _ _ _ _ _ _ _ _ _ _ _ _ _ _ _ HS Ec) by discriminate.
  unfold I_simple_collapse. cbn [at3 c_gal s_cfg g_rest s_gal length g_ratio].
  unfold fsumn. cbn [seq map]. unfold fsum; cbn [fold_right]. rewrite !Z.
  rewrite S6. cbn [c_prof s_prof p_int p_vel s_cfg]. rewrite R0, Y0, ZI, Si, Hf, <- Gz.
  assert (V : fmul (fmul (Fin 0) (if feqb (Fin (1/2)) (Fin 0) then Fin 0 else fdiv (Fin (1/2)) (Fin (1/2)))) (Fin 0) = Fin 0).
  { cbn [feqb]. destruct (Reqb (1/2) 0) eqn:E; cbn [fmul]; [f_equal; ring|]. unfold fdiv. rewrite E. cbn [fmul]. f_equal; ring. }
  rewrite V. unfold lnth. change (g_wave s_gal) with [Fin 1; Fin 2]. cbn [nth map length Nat.sub argmin_ isnan].
  pose proof c_kms_pos as Hc.
  assert (D : fdiv (Fin 0) (Fin c_kms) = Fin 0).
  { unfold fdiv. destruct (Reqb c_kms 0) eqn:E; [apply Reqb_true in E; lra|]. f_equal. unfold Rdiv. ring. }
  rewrite D. unfold fsub. cbn [fadd fneg fmul fabs isnan fltb].
  replace (1 * (1 + z) * (1 + 0) + - (2)) with (z - 1) by ring. replace (1 * (1 + z) * (1 + 0) + - (1)) with z by ring.
  rewrite F8, F7, F9, NX1. cbn [i_pix i_slit c_ins s_cfg w_ins INR o_nsub c_opt w_opt].
  destruct Hz as [->| ->].
  - rewrite Rabs_R0. destruct (Rltb (Rabs (0 - 1)) 0) eqn:E; [apply Rltb_true in E; pose proof (Rabs_pos (0-1)); lra|].
    cbn [Nat.eqb fmul]. f_equal. field.
  - replace (1 - 1) with 0 by ring. rewrite Rabs_R0, Rabs_R1. destruct (Rltb 0 1) eqn:E; [|apply Rltb_false in E; lra].
    cbn [Nat.eqb fmul]. f_equal. field.
Qed.

(* ---- two models that share a light profile ---- *)

Definition s_int (re : R) : fl -> fl -> fl := fiducial_int (Fin 1) (Fin re) (Fin (1/2)).
Definition s_val (re : R) : R := exp (- (2 - 324/1000) * (1 / 2 / re - 1)).

Lemma s_int_val re : 0 < re -> s_int re (Fin (1/2)) (Fin 0) = Fin (s_val re).
Proof.
  intros H. unfold s_int, fiducial_int, int_fiducial, sersic_int, py_inv. rewrite (proj2 (Reqb_false 1 0)) by lra. cbn [bind].
  rewrite fdiv_Fin by lra. rewrite fpow_pos by (apply Rdiv_lt_0_compat; lra).
  unfold expz_int, expz_z0. cbn [fabs fneg fmul]. rewrite fdiv_Fin by nra. cbn [fsub fadd fneg fmul fexp].
  f_equal. rewrite Rabs_R0. replace (- 0 / (1/2 * re)) with 0 by (field; lra). rewrite exp_0.
  replace (1 / 1) with 1 by field. rewrite Rpower_1 by (apply Rdiv_lt_0_compat; lra). unfold s_val.
  rewrite Rmult_1_l, Rmult_1_r. f_equal. ring.
Qed.

Lemma s_make f v z mm st : f (Fin (1/2)) (Fin 0) = Fin v -> z = 0 \/ z = 1 ->
  exists k m, km_make (s_cfg f) [] (mkkm (w_th z) [false; false; false] true None mm st) = (k, Ok tt) /\ k_model k = Some m /\ at2 m 0 0 = Fin (v * (1 - z)).
Proof.
  intros Hf Hz. destruct (s_image f v z Hf Hz) as (a0&b&m&Es&Eb&Em&V).
  assert (X : km_make (s_cfg f) [] (mkkm (w_th z) [false; false; false] true None mm st) =
     store_model (s_cfg f) (mkkm (w_th z) [false;false;false] true (Some b) mm (a_stamp b)) b).
  { unfold km_make. change (negb _) with false. cbv iota.
    change (update_parameters _ _ []) with (w_th z, @Ok unit tt). cbv beta iota zeta.
    cbn [k_aper]. unfold aper_new. rewrite Es, Eb. reflexivity. }
  rewrite X. unfold store_model. rewrite Em. cbn [k_noscale]. eexists _, _. split; [reflexivity|]. cbn. auto.
Qed.

(* galaxies of half-light radius 1/2 and 1; all objects but the light profile are their own *)
Definition s_decl (i : nat) : decl :=
  mkDecl (s_cfg (s_int (if Nat.eqb i 0 then 1/2 else 1))) [false; false; false] true i 0 i i.
Definition s_world : world := mkWorld (fun _ => w_th 0) (fun _ _ _ => Fin 0) (fun _ => ([], [])) (fun _ => NoStamp) (fun _ => None).

Lemma shared_profile_general D i j tf w : i <> j -> d_int (D i) = d_int (D j) ->
  observed D i [New i; New j; Make i tf] w =
  [(Ok tt, None);
   let (k, r) := km_make (with_int (d_cfg (D i)) (p_int (c_prof (d_cfg (D j))))) tf
                   (mkkm (w_theta w (d_theta (D i))) (d_vary (D i)) (d_noscale (D i)) None None (w_stamp w (d_ins (D i)))) in
   (r, k_model k)].
Proof.
  intros N E. cbn [observed step target]. rewrite Nat.eqb_refl. rewrite (proj2 (Nat.eqb_neq j i)) by congruence.
  unfold image at 1. cbn [w_km]. rewrite !upd_same. cbn [k_model]. rewrite upd_other by exact N. rewrite upd_same.
  f_equal. unfold cfg_of, load. cbn [w_int w_theta w_kin w_stamp k_vary k_noscale k_aper k_model option_map]. rewrite E, upd_same.
  destruct (km_make _ tf _) as [k r]. unfold image. cbn [store w_km]. rewrite upd_same. reflexivity.
Qed.

Lemma shared_profile_witness : exists D i j w, i <> j /\ no_models w /\ d_int (D i) = d_int (D j) /\
  d_theta (D i) <> d_theta (D j) /\ d_kin (D i) <> d_kin (D j) /\ d_ins (D i) <> d_ins (D j) /\
  exists ops, observed D i ops w <> observed D i (filter (about i) ops) w.
Proof.
  exists s_decl, 0%nat, 1%nat, s_world. split; [discriminate|]. split; [intros k; reflexivity|]. split; [reflexivity|].
  split; [discriminate|]. split; [discriminate|]. split; [discriminate|].
  exists [New 0; New 1; Make 0 []]. intros E.
  rewrite (shared_profile_general s_decl 0 1 [] s_world) in E; [|discriminate|reflexivity].
  change (filter (about 0) [New 0; New 1; Make 0 []]) with [New 0; Make 0 []] in E.
  assert (F : observed s_decl 0 [New 0; Make 0 []] s_world =
    [(Ok tt, None); let (k, r) := km_make (s_cfg (s_int (1/2))) [] (mkkm (w_th 0) [false;false;false] true None None NoStamp) in (r, k_model k)]).
  { cbn [observed step target]. rewrite Nat.eqb_refl. unfold image at 1. cbn [w_km]. rewrite !upd_same. cbn [k_model]. f_equal.
    unfold cfg_of, load. cbn [w_int w_theta w_kin w_stamp k_vary k_noscale k_aper k_model option_map]. rewrite !upd_same.
    change (with_int (d_cfg (s_decl 0)) (p_int (c_prof (d_cfg (s_decl 0))))) with (s_cfg (s_int (1/2))).
    change (w_theta s_world (d_theta (s_decl 0))) with (w_th 0). change (w_stamp s_world (d_ins (s_decl 0))) with NoStamp.
    cbn [s_decl d_vary d_noscale].
    destruct (km_make (s_cfg (s_int (1/2))) [] _) as [k r]. unfold image. cbn [store w_km]. rewrite upd_same. reflexivity. }
  rewrite F in E. clear F.
  change (with_int (d_cfg (s_decl 0)) (p_int (c_prof (d_cfg (s_decl 1))))) with (s_cfg (s_int 1)) in E.
  change (w_theta s_world (d_theta (s_decl 0))) with (w_th 0) in E. change (w_stamp s_world (d_ins (s_decl 0))) with NoStamp in E.
  cbn [s_decl d_vary d_noscale] in E.
  destruct (s_make (s_int 1) (s_val 1) 0 None NoStamp) as (k1 & m1 & E1 & M1 & V1); [apply s_int_val; lra|now left|].
  destruct (s_make (s_int (1/2)) (s_val (1/2)) 0 None NoStamp) as (k2 & m2 & E2 & M2 & V2); [apply s_int_val; lra|now left|].
  rewrite E1, E2, M1, M2 in E. injection E as E. rewrite E, V2 in V1. injection V1 as V1.
  unfold s_val in V1. rewrite !Rminus_0_r, !Rmult_1_r in V1. apply exp_inv in V1. lra.
Qed.

(* ---- two models that share the array of parameters ---- *)

(* the second galaxy's redshift is free, the first one's parameters are all fixed *)
Definition t_decl (i : nat) : decl :=
  mkDecl (s_cfg (s_int 1)) (if Nat.eqb i 0 then [false; false; false] else [false; false; true]) true 0 i i i.

Lemma theta_frame D i w tf o : (o = Make i tf \/ o = Update i tf) ->
  length (d_vary (D i)) = length (w_theta w (d_theta (D i))) -> length tf = nfree (d_vary (D i)) ->
  let w' := fst (step D (fst (step D w (New i))) o) in
  (forall m, free (d_vary (D i)) m -> nth_error (w_theta w' (d_theta (D i))) m = nth_error tf (rank (d_vary (D i)) m)) /\
  (forall m, ~ free (d_vary (D i)) m -> nth_error (w_theta w' (d_theta (D i))) m = nth_error (w_theta w (d_theta (D i))) m).
Proof.
  intros Ho L T. set (w1 := fst (step D w (New i))).
  assert (W1 : w_theta w1 = w_theta w) by reflexivity.
  assert (K1 : w_km w1 i = Some (mkkm (w_theta w (d_theta (D i))) (d_vary (D i)) (d_noscale (D i)) None None (w_stamp w (d_ins (D i))))).
  { unfold w1. cbn [step fst w_km]. apply upd_same. }
  destruct (update_parameters_spec (w_theta w (d_theta (D i))) (d_vary (D i)) tf L ltac:(lia)) as (th & U & UL & UF & UN).
  assert (G : w_theta (fst (step D w1 o)) (d_theta (D i)) = th).
  { destruct Ho as [->| ->]; cbn [step]; rewrite K1; unfold load; cbn [k_vary k_noscale k_aper k_model option_map]; rewrite W1.
    - unfold km_make. cbn [k_vary k_theta k_aper k_noscale k_model k_stamp]. rewrite n_free_param_nfree, T, Nat.eqb_refl. cbn [negb].
      rewrite U. destruct (aper_new _ th _) as [st [a|e]].
      + match goal with |- context [store_model ?c ?kk a] => destruct (store_model c kk a) as [k' r] eqn:Es; apply store_fields in Es end.
        cbn [fst store w_theta]. rewrite upd_same. destruct Es as (-> & _). reflexivity.
      + cbn [fst store w_theta]. rewrite upd_same. reflexivity.
    - unfold km_update. cbn [k_vary k_theta k_aper k_noscale k_model k_stamp]. rewrite n_free_param_nfree, T, Nat.eqb_refl. cbn [negb].
      rewrite U. cbn [km_update_aper k_aper fst store w_theta]. rewrite upd_same. reflexivity. }
  cbv zeta. rewrite G. auto.
Qed.

Lemma observed_app D i : forall ops1 ops2 w, observed D i (ops1 ++ ops2) w = (observed D i ops1 w ++ observed D i ops2 (run_ops D ops1 w))%list.
Proof.
  induction ops1 as [|o ops1 IH]; intros ops2 w; [reflexivity|]. unfold run_ops. cbn [app observed fold_left].
  destruct (step D w o) as [w' r] eqn:E. cbn [fst]. fold (run_ops D ops1 w'). rewrite IH. destruct (Nat.eqb (target o) i); reflexivity.
Qed.

Lemma make_theta c tf k th : length tf = nfree (k_vary k) -> update_parameters (k_theta k) (k_vary k) tf = (th, Ok tt) ->
  k_theta (fst (km_make c tf k)) = th.
Proof.
  intros T U. unfold km_make. rewrite n_free_param_nfree, T, Nat.eqb_refl. cbn [negb]. rewrite U. cbn [k_aper].
  destruct (k_aper k).
  - match goal with |- context [km_update_aper c ?kk] => destruct (update_aper_frame c kk) as (_ & _ & -> & _) end. reflexivity.
  - destruct (aper_new c th _) as [st [a'|e]]; [|reflexivity].
    match goal with |- context [store_model c ?kk a'] => destruct (store_model_frame c kk a') as (_ & _ & -> & _) end. reflexivity.
Qed.

Lemma observed_make D i tf w k : w_km w i = Some k ->
  observed D i [Make i tf] w = [let (k', r) := km_make (cfg_of (D i) w) tf (load (D i) w k) in (r, k_model k')].
Proof.
  intros E. cbn [observed step target]. rewrite E, Nat.eqb_refl. destruct (km_make _ tf _) as [k' r].
  unfold image. cbn [store w_km]. rewrite upd_same. reflexivity.
Qed.

Lemma observed_update D i tf w k : w_km w i = Some k ->
  observed D i [Update i tf] w = [let (k', r) := km_update (cfg_of (D i) w) tf (load (D i) w k) in (r, k_model k')].
Proof.
  intros E. cbn [observed step target]. rewrite E, Nat.eqb_refl. destruct (km_update _ tf _) as [k' r].
  unfold image. cbn [store w_km]. rewrite upd_same. reflexivity.
Qed.

Lemma shared_theta_witness : exists D i j w, i <> j /\ no_models w /\ d_theta (D i) = d_theta (D j) /\
  d_int (D i) <> d_int (D j) /\ d_kin (D i) <> d_kin (D j) /\ d_ins (D i) <> d_ins (D j) /\ (forall m, ~ free (d_vary (D i)) m) /\
  exists ops, observed D i ops w <> observed D i (filter (about i) ops) w.
Proof.
  exists t_decl, 0%nat, 1%nat, s_world. split; [discriminate|]. split; [intros k; reflexivity|]. split; [reflexivity|].
  split; [discriminate|]. split; [discriminate|]. split; [discriminate|].
  split; [intros m; unfold free; cbn; destruct m as [|[|[|[|m]]]]; discriminate|].
  exists ([New 0; New 1; Make 1 [Fin 1]] ++ [Make 0 []])%list. intros E.
  change (filter (about 0) ([New 0; New 1; Make 1 [Fin 1]] ++ [Make 0 []])%list) with ([New 0] ++ [Make 0 []])%list in E.
  rewrite !observed_app in E.
  set (W2 := run_ops t_decl [New 0] s_world) in E. set (W1 := run_ops t_decl [New 0; New 1; Make 1 [Fin 1]] s_world) in E.
  set (W0 := run_ops t_decl [New 0; New 1] s_world).
  assert (WE : W1 = fst (step t_decl W0 (Make 1 [Fin 1]))) by reflexivity.
  assert (K2 : w_km W2 0 = Some (mkkm (w_th 0) [false;false;false] true None None NoStamp)) by reflexivity.
  assert (K0 : w_km W0 0 = Some (mkkm (w_th 0) [false;false;false] true None None NoStamp)) by reflexivity.
  assert (K01 : w_km W0 1 = Some (mkkm (w_th 0) [false;false;true] true None None NoStamp)) by reflexivity.
  destruct (step_elsewhere t_decl W0 (Make 1 [Fin 1])) as (EK & _ & EI). rewrite <- WE in *.
  assert (K1 : w_km W1 0 = Some (mkkm (w_th 0) [false;false;false] true None None NoStamp)) by (rewrite EK by discriminate; exact K0).
  assert (I1 : w_int W1 0%nat = s_int 1) by (destruct (EI 0%nat) as [->|[X _]]; [reflexivity|discriminate X]).
  assert (T1 : w_theta W1 0%nat = w_th 1).
  { rewrite WE. cbn [step]. rewrite K01.
    pose proof (make_theta (cfg_of (t_decl 1) W0) [Fin 1] (load (t_decl 1) W0 (mkkm (w_th 0) [false;false;true] true None None NoStamp)) (w_th 1) eq_refl eq_refl) as X.
    destruct (km_make _ [Fin 1] _) as [k' r]. cbn [fst store w_theta] in *. change (d_theta (t_decl 1)) with 0%nat. rewrite upd_same. exact X. }
  rewrite (observed_make _ _ _ _ _ K1), (observed_make _ _ _ _ _ K2) in E.
  assert (O : observed t_decl 0 [New 0; New 1; Make 1 [Fin 1]] s_world = observed t_decl 0 [New 0] s_world).
  { change [New 0; New 1; Make 1 [Fin 1]] with ([New 0; New 1] ++ [Make 1 [Fin 1]])%list. rewrite observed_app. fold W0.
    replace (observed t_decl 0 [Make 1 [Fin 1]] W0) with (@nil (res unit * option (arr2 fl))); [reflexivity|].
    cbn [observed target]. destruct (step t_decl W0 (Make 1 [Fin 1])) as [x r]. reflexivity. }
  rewrite O in E. apply app_inv_head in E. unfold load, cfg_of in E.
  change (d_theta (t_decl 0)) with 0%nat in E. change (d_int (t_decl 0)) with 0%nat in E. rewrite I1, T1 in E.
  change (w_int W2 0%nat) with (s_int 1) in E. change (w_theta W2 0%nat) with (w_th 0) in E.
  cbn [k_vary k_noscale k_aper k_model option_map] in E.
  change (with_int (d_cfg (t_decl 0)) (s_int 1)) with (s_cfg (s_int 1)) in E.
  destruct (s_make (s_int 1) (s_val 1) 1 None (w_stamp W1 (d_ins (t_decl 0)))) as (k1 & m1 & E1 & M1 & V1); [apply s_int_val; lra|now right|].
  destruct (s_make (s_int 1) (s_val 1) 0 None (w_stamp W2 (d_ins (t_decl 0)))) as (k2 & m2 & E2 & M2 & V2); [apply s_int_val; lra|now left|].
  rewrite E1, E2, M1, M2 in E. injection E as E. rewrite E, V2 in V1. injection V1 as V1.
  pose proof (exp_pos (- (2 - 324/1000) * (1 / 2 / 1 - 1))) as P. fold (s_val 1) in P. lra.
Qed.

(* ---- two models that share the instrument ---- *)

(* seeing of a quarter of a detector row, slit of two rows *)
Definition p_ins : instr := mkinstr 2 1 (1/4) (Fin 0) false (fun _ _ => Fin 1).
Definition p_cfg (rows nsub : nat) : cfg :=
  mkcfg (mkgal (Fin 1) (Fin (1/2)) (Fin 0) rows (map Fin [1; 2]) (Fin 0) [Fin 1] [Fin 1] w_data) p_ins
    (mkopts nsub 0 true false false 0 Wave false false 1 false) (s_prof (s_int 1)).
Definition p_decl (i : nat) : decl :=
  mkDecl (if Nat.eqb i 0 then p_cfg 1 2 else p_cfg 2 1) [false; false; false] true i i i 0.

Lemma p_posed : well_posed (p_cfg 1 2) (w_th 0) [1; 2].
Proof.
  unfold well_posed. cbn. repeat split; try lia; try lra; try discriminate; auto; [apply incr12|].
  right. split; [lra|]. split; [lra|]. exists (0 + 0). reflexivity.
Qed.

Lemma p_stamp : exists a, setup_calcs (p_cfg 2 1) (w_th 0) = Ok a /\ exists ker, a_stamp a = Stamp3 ker /\ size3 ker = 0%nat.
Proof.
  assert (Hs : slit_npix p_ins (c_opt (p_cfg 2 1)) 2 = 2%nat).
  { unfold slit_npix. cbn [p_ins i_pix i_slit p_cfg c_opt o_nsub]. rewrite (proj2 (Reqb_true _ _)); [reflexivity|]. cbn. field. }
  assert (Hg : exists g w, setup_model_grid (p_cfg 2 1) (w_th 0) = Ok (g, w)).
  { unfold setup_model_grid. change (Nat.eqb (o_nsub (c_opt (p_cfg 2 1))) 0) with false. cbv iota.
    change (slit_npix (c_ins (p_cfg 2 1)) (c_opt (p_cfg 2 1)) (g_rows (c_gal (p_cfg 2 1)))) with (slit_npix p_ins (c_opt (p_cfg 2 1)) 2).
    rewrite Hs. cbn [Nat.eqb]. eexists _, _. reflexivity. }
  destruct Hg as (g & w & Hg). unfold setup_calcs. rewrite Hg. cbn [bind]. eexists. split; [reflexivity|]. cbn [a_stamp].
  unfold make_stamp. eexists. split; [reflexivity|]. unfold size3. cbn [dim0 dim1 dim2].
  destruct (setup_fields _ _ _ _ Hg) as (F1&F2&F3&F4&F5&F6&F7&F8&F9&F10&F11&F12&_).
  destruct (x_grid _ _ _ _ Hg) as [L X].
  assert (N2 : n_pix_x g = 2%nat) by (rewrite F6; exact Hs).
  assert (P0 : padX g = 0%nat) by (rewrite F11; cbn [p_cfg c_ins c_opt o_pad p_ins i_fwhm]; rewrite Rmult_0_r; apply pad0).
  assert (NX : nX g = 2%nat) by (rewrite F12, N2, P0; reflexivity).
  assert (XS : x_arr g = [Fin (-1/2); Fin (1/2)]).
  { rewrite NX in *. destruct (x_arr g) as [|x0 [|x1 [|x2 l]]] eqn:Ex; try (cbn in L; discriminate).
    pose proof (X 0%nat ltac:(lia)) as X0. pose proof (X 1%nat ltac:(lia)) as X1. unfold lnth in X0, X1. cbn [nth] in X0, X1.
    unfold xat in X0, X1. rewrite NX, F9, N2 in X0, X1. rewrite X0, X1. cbn [p_cfg c_opt o_xc c_ins p_ins i_slit INR].
    assert (E1 : forall a b : R, a = b -> Fin a = Fin b) by (intros; f_equal; assumption).
    f_equal; [apply E1; field|]. f_equal. apply E1; field. }
  assert (NN : near (i_fwhm (c_ins (p_cfg 2 1))) (x_arr g) = []).
  { rewrite XS. unfold near, average, fsum. cbn [fold_right fadd length]. replace (-1/2 + (1/2 + 0)) with 0 by field.
    rewrite fdiv_Fin by (cbn; lra). replace (0 / INR 2) with 0 by (cbn; field). cbn [filter fsub fadd fneg fabs fleb p_cfg c_ins p_ins i_fwhm].
    rewrite (proj2 (Rleb_false _ _)); [|rewrite Rabs_left; lra]. rewrite (proj2 (Rleb_false _ _)); [reflexivity|rewrite Rabs_right; lra]. }
  rewrite NN. cbn. lia.
Qed.

Lemma aper_new_stamp c th st a : setup_calcs c th = Ok a -> fst (aper_new c th st) = a_stamp a.
Proof.
  intros E. unfold aper_new. rewrite E. destruct (setup_calcs_inv _ _ _ E) as (w & W1 & W2 & W3 & W4).
  destruct (eval_pres c (a_su a) w (a_stamp a) W1 a W3) as [P _]. destruct (do_model_calcs c a) as [b [u|e]]; cbn [fst] in *; apply P.
Qed.

Lemma shared_instrument_witness : exists D i j w, i <> j /\ no_models w /\ d_ins (D i) = d_ins (D j) /\
  d_int (D i) <> d_int (D j) /\ d_kin (D i) <> d_kin (D j) /\ d_theta (D i) <> d_theta (D j) /\
  exists ops, map fst (observed D i (filter (about i) ops) w) = [Ok tt; Ok tt; Ok tt] /\ map fst (observed D i ops w) = [Ok tt; Ok tt; Err IndexError].
Proof.
  exists p_decl, 0%nat, 1%nat, s_world. split; [discriminate|]. split; [intros k; reflexivity|]. split; [reflexivity|].
  split; [discriminate|]. split; [discriminate|]. split; [discriminate|].
  exists ([New 0; Make 0 []; New 1; Make 1 []] ++ [Update 0 []])%list.
  change (filter (about 0) ([New 0; Make 0 []; New 1; Make 1 []] ++ [Update 0 []])%list) with (([New 0] ++ [Make 0 []]) ++ [Update 0 []])%list.
  set (k0 := mkkm (w_th 0) [false;false;false] true None None NoStamp).
  (* the first model *)
  destruct (well_posed_eval _ _ _ p_posed) as (a0 & b & Es & Eb).
  set (c0 := p_cfg 1 2) in *.
  destruct (setup_calcs_inv _ _ _ Es) as (w & Q1 & Q2 & Q3 & Q4).
  destruct (eval_pres c0 (a_su a0) w (a_stamp a0) Q1 a0 Q3) as [P1 P2]. rewrite Eb in P1, P2. cbn [fst snd] in P1, P2. specialize (P2 eq_refl).
  assert (AM : exists m, a_model b = Some m).
  { destruct (a_model b) eqn:Em; [eauto|exfalso]. clear - Eb Em. unfold do_model_calcs in Eb.
    do 7 (unfold bindS at 1 in Eb; match type of Eb with (match ?x with _ => _ end) = _ => destruct x as [? [?|?]]; [|discriminate] end).
    unfold bindS, getS in Eb. match type of Eb with context [a_out ?x] => destruct (a_out x); [|discriminate] end.
    inversion Eb; subst. discriminate. }
  destruct AM as [m Em].
  set (k1 := mkkm (w_th 0) [false;false;false] true (Some b) (Some m) (a_stamp b)).
  assert (M0 : km_make c0 [] k0 = (k1, Ok tt)).
  { unfold km_make. change (negb _) with false. cbv iota. change (update_parameters _ _ []) with (w_th 0, @Ok unit tt). cbv beta iota zeta.
    cbn [k_aper k0]. unfold aper_new. rewrite Es, Eb. unfold store_model. rewrite Em. reflexivity. }
  (* a later evaluation with the stamp st *)
  assert (UP : forall st v d, snd (km_update c0 [] (mkkm (w_th 0) [false;false;false] true (Some (set_stamp st (set_prof v d b))) (Some m) st)) =
     match snd (do_model_calcs c0 (set_stamp st (set_theta (w_th 0) b))) with Ok _ => snd (store_model c0 (mkkm (w_th 0) [false;false;false] true (Some (fst (do_model_calcs c0 (set_stamp st (set_theta (w_th 0) b))))) (Some m) (a_stamp (fst (do_model_calcs c0 (set_stamp st (set_theta (w_th 0) b)))))) (fst (do_model_calcs c0 (set_stamp st (set_theta (w_th 0) b))))) | Err e => Err e end).
  { intros st v d. unfold km_update. change (negb _) with false. cbv iota. change (update_parameters _ _ []) with (w_th 0, @Ok unit tt). cbv beta iota zeta.
    unfold km_update_aper. cbn [k_aper k_theta k_vary k_noscale k_model]. rewrite aper_update_reads.
    change (aper_update c0 (w_th 0) (set_stamp st (clean b))) with (do_model_calcs c0 (set_stamp st (set_theta (w_th 0) b))).
    destruct (do_model_calcs c0 (set_stamp st (set_theta (w_th 0) b))) as [x [u|e]]; reflexivity. }
  assert (E2 : exists b', do_model_calcs c0 (set_theta (w_th 0) b) = (b', Ok tt) /\ a_model b' = Some m).
  { pose proof (eval_rel c0 (a_su a0) w (a_stamp a0) Q1 (set_theta (w_th 0) b) a0) as R.
    destruct R as [R1 R2]; [now apply inv_theta|exact Q3|symmetry; exact Q4|cbn; congruence|]. rewrite Eb in R1, R2. cbn [fst snd] in R1, R2.
    destruct (do_model_calcs c0 (set_theta (w_th 0) b)) as [b' r]. cbn [fst snd] in R1, R2. rewrite R1 in *. exists b'. rewrite R2 by reflexivity. auto. }
  destruct E2 as (b' & E2 & E2m).
  (* alone *)
  assert (STB : set_stamp (a_stamp b) (set_theta (w_th 0) b) = set_theta (w_th 0) b) by reflexivity.
  split.
  - rewrite !observed_app. set (W1 := run_ops p_decl [New 0] s_world). set (W2 := run_ops p_decl ([New 0] ++ [Make 0 []]) s_world).
    assert (K1 : w_km W1 0 = Some k0) by reflexivity.
    assert (L1 : load (p_decl 0) W1 k0 = k0) by reflexivity.
    assert (C1 : cfg_of (p_decl 0) W1 = c0) by reflexivity.
    assert (WE : W2 = store (p_decl 0) 0 W1 k1).
    { change W2 with (fst (step p_decl W1 (Make 0 []))). cbn [step]. rewrite K1, L1, C1, M0. reflexivity. }
    rewrite (observed_make _ _ _ _ _ K1), L1, C1, M0.
    assert (K2 : w_km W2 0 = Some k1) by (rewrite WE; reflexivity).
    rewrite (observed_update _ _ _ _ _ K2). rewrite WE.
    change (cfg_of (p_decl 0) (store (p_decl 0) 0 W1 k1)) with c0.
    change (load (p_decl 0) (store (p_decl 0) 0 W1 k1) k1) with
      (mkkm (w_th 0) [false;false;false] true (Some (set_stamp (a_stamp b) (set_prof (a_vel b) (a_disp b) b))) (Some m) (a_stamp b)).
    specialize (UP (a_stamp b) (a_vel b) (a_disp b)). rewrite STB, E2 in UP. cbn [fst snd] in UP. unfold store_model in UP. rewrite E2m in UP. cbn [k_noscale snd] in UP.
    destruct (km_update c0 [] _) as [k' r]. cbn [snd] in UP. subst r. reflexivity.
  - rewrite !observed_app. set (W4 := run_ops p_decl [New 0; Make 0 []; New 1; Make 1 []] s_world).
    set (W1 := run_ops p_decl [New 0] s_world). set (W3 := fst (step p_decl (store (p_decl 0) 0 W1 k1) (New 1))).
    assert (K1 : w_km W1 0 = Some k0) by reflexivity.
    assert (S2 : step p_decl W1 (Make 0 []) = (store (p_decl 0) 0 W1 k1, Ok tt)).
    { cbn [step]. rewrite K1. change (load (p_decl 0) W1 k0) with k0. change (cfg_of (p_decl 0) W1) with c0. rewrite M0. reflexivity. }
    assert (WE : W4 = fst (step p_decl W3 (Make 1 []))).
    { change W4 with (fst (step p_decl (fst (step p_decl (fst (step p_decl W1 (Make 0 []))) (New 1))) (Make 1 []))). rewrite S2. reflexivity. }
    destruct p_stamp as (a & Ea & ker & Ek & Kz).
    destruct (step_elsewhere p_decl W3 (Make 1 [])) as (EK & _ & EI). rewrite <- WE in *.
    assert (K4 : w_km W4 0 = Some k1) by (rewrite EK by discriminate; reflexivity).
    assert (I4 : w_int W4 0%nat = s_int 1) by (destruct (EI 0%nat) as [->|[X _]]; [reflexivity|discriminate X]).
    pose proof (step_theta p_decl W3 (Make 1 []) 0%nat) as ST. rewrite <- WE in ST.
    assert (V3 : varies p_decl W3).
    { apply step_varies. change (store (p_decl 0) 0 W1 k1) with (fst (store (p_decl 0) 0 W1 k1, @Ok unit tt)). rewrite <- S2.
      apply step_varies. unfold W1, run_ops. cbn [fold_left]. apply step_varies. intros j k E. discriminate. }
    destruct (ST V3) as (_ & T4 & _). specialize (T4 ltac:(discriminate)).
    assert (K3 : w_km W3 1 = Some (mkkm (w_th 0) [false;false;false] true None None (a_stamp b))) by reflexivity.
    assert (ST4 : w_stamp W4 0%nat = Stamp3 ker).
    { rewrite WE. cbn [step]. rewrite K3. change (cfg_of (p_decl 1) W3) with (p_cfg 2 1).
      change (load (p_decl 1) W3 (mkkm (w_th 0) [false;false;false] true None None (a_stamp b))) with (mkkm (w_th 0) [false;false;false] true None None (a_stamp b)).
      pose proof (aper_new_stamp _ _ (a_stamp b) _ Ea) as AS.
      unfold km_make. change (negb _) with false. cbv iota. change (update_parameters _ _ []) with (w_th 0, @Ok unit tt). cbv beta iota zeta.
      cbn [k_aper k_stamp]. destruct (aper_new (p_cfg 2 1) (w_th 0) (a_stamp b)) as [st [a'|e]]; cbn [fst] in AS; rewrite Ek in AS; subst st.
      - match goal with |- context [store_model ?c ?kk a'] => destruct (store_model c kk a') as [k' r] eqn:X; apply store_fields in X end.
        cbn [fst store w_stamp]. change (d_ins (p_decl 1)) with 0%nat. rewrite upd_same. destruct X as (_ & _ & _ & _ & ->). reflexivity.
      - reflexivity. }
    rewrite (observed_update _ _ _ _ _ K4). unfold cfg_of, load. change (d_int (p_decl 0)) with 0%nat. change (d_theta (p_decl 0)) with 0%nat.
    change (d_ins (p_decl 0)) with 0%nat. change (d_kin (p_decl 0)) with 0%nat. rewrite I4, ST4, T4. change (w_theta W3 0%nat) with (w_th 0).
    change (with_int (d_cfg (p_decl 0)) (s_int 1)) with c0. cbn [k1 k_vary k_noscale k_aper k_model option_map].
    specialize (UP (Stamp3 ker) (fst (w_kin W4 0%nat)) (snd (w_kin W4 0%nat))).
    rewrite (empty_stamp_fails c0 ker (set_theta (w_th 0) b) b') in UP; [|cbn; lra|reflexivity|exact Kz|exact E2].
    destruct (km_update c0 [] _) as [k' r]. cbn [snd] in UP. subst r.
    assert (O : map fst (observed p_decl 0 [New 0; Make 0 []; New 1; Make 1 []] s_world) = [Ok tt; Ok tt]).
    { change [New 0; Make 0 []; New 1; Make 1 []] with ([New 0] ++ [Make 0 []; New 1; Make 1 []])%list. rewrite observed_app. fold W1.
      cbn [observed target]. rewrite S2. cbn [Nat.eqb]. destruct (step p_decl (store (p_decl 0) 0 W1 k1) (New 1)) as [x r]. destruct (step p_decl x (Make 1 [])). reflexivity. }
    rewrite map_app, O. reflexivity.
Qed.
