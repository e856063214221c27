From Coq Require Import Reals Lra List Bool Arith ZArith Lia Permutation.
From Verif Require Import PyFloat PyBase Arr PyNum MParams MKernels MAper2D SParams SKernels SAper2D SAper1D SLine SLos SMirror SLineset PKernels PMirror PBright PLine PLos.
Import ListNotations.
Local Open Scope R_scope.

(* what the sum over lines depends on *)
Definition line_sum (rest ratio : list fl) (F : fl -> fl) : fl := fsumn (length rest) (fun i => fmul (F (lnth rest i)) (lnth ratio i)).

Lemma line_sum_pairs F : forall rest ratio, length ratio = length rest ->
  line_sum rest ratio F = fsum (map (fun p => fmul (F (fst p)) (snd p)) (combine rest ratio)).
Proof.
  unfold line_sum, fsumn. induction rest as [|a rest IH]; intros [|b ratio] L; cbn [length] in L; try lia; [reflexivity|].
  cbn [combine map length seq]. rewrite <- seq_shift, map_map. cbn [fst snd fsum fold_right].
  f_equal. fold fsum. rewrite <- IH by lia. reflexivity.
Qed.

Lemma perm_sum F rest ratio rest' ratio' : length ratio = length rest -> length ratio' = length rest' ->
  Permutation (combine rest ratio) (combine rest' ratio') -> line_sum rest ratio F = line_sum rest' ratio' F.
Proof.
  intros L L' P. rewrite !line_sum_pairs by assumption. apply fsum_perm. now apply Permutation_map.
Qed.

Lemma fmul_pos_add x a b : 0 < a -> 0 < b -> fmul x (Fin (a + b)) = fadd (fmul x (Fin a)) (fmul x (Fin b)).
Proof.
  intros A B. destruct x as [r| | |]; cbn [fmul fadd]; auto; [f_equal; ring| |];
    unfold inf_scale; rewrite !(proj2 (Reqb_false _ _)) by lra; rewrite !(proj2 (Rltb_true _ _)) by lra; reflexivity.
Qed.

Lemma fsum_app l l' : fsum (l ++ l') = fadd (fsum l) (fsum l').
Proof.
  induction l as [|a l IH]; cbn [app fsum fold_right].
  - fold (fsum l'). destruct (fsum l'); cbn; auto. f_equal; ring.
  - fold fsum. change (fold_right fadd (Fin 0) (l ++ l')) with (fsum (l ++ l')). rewrite IH. change (fold_right fadd (Fin 0) l) with (fsum l). apply fadd_assoc.
Qed.

Lemma combine_app {A B} : forall (l : list A) (r : list B) l' r', length r = length l -> combine (l ++ l') (r ++ r') = combine l r ++ combine l' r'.
Proof. induction l as [|a l IH]; intros [|b r] l' r' L; cbn in L; try lia; [reflexivity|]. cbn. f_equal. apply IH. lia. Qed.

Lemma merge_sum F A B ra rb lam a b : length ra = length A -> length rb = length B -> 0 < a -> 0 < b ->
  line_sum (A ++ lam :: lam :: B) (ra ++ Fin a :: Fin b :: rb) F = line_sum (A ++ lam :: B) (ra ++ Fin (a + b) :: rb) F.
Proof.
  intros LA LB Ha Hb. rewrite !line_sum_pairs by (rewrite !app_length; cbn [length]; lia).
  rewrite !combine_app by assumption. rewrite !map_app, !fsum_app. f_equal. cbn [combine map fst snd fsum fold_right].
  rewrite fmul_pos_add by assumption. apply fadd_assoc.
Qed.

Definition lines_alike (rest ratio rest' ratio' : list fl) : Prop :=
  length ratio = length rest /\ length ratio' = length rest' /\ nth_error rest 0 = nth_error rest' 0 /\
  forall F, line_sum rest ratio F = line_sum rest' ratio' F.

Lemma cube_alike rest ratio rest' ratio' I V sg wave z nW nz ny nx dz I4 wref sp : lines_alike rest ratio rest' ratio' ->
  add_sigma_collapse_z I V sg wave z rest ratio nW nz ny nx dz I4 wref sp =
  add_sigma_collapse_z I V sg wave z rest' ratio' nW nz ny nx dz I4 wref sp.
Proof.
  intros (L&L'&N&H). unfold add_sigma_collapse_z. destruct sp; try reflexivity.
  assert (Z : Nat.eqb (length rest) 0 = Nat.eqb (length rest') 0) by (destruct rest, rest'; cbn in *; congruence).
  rewrite Z. destruct (Nat.eqb (length rest') 0); [reflexivity|]. destruct (np_max _) as [mx|]; [|reflexivity]. cbn [bind].
  destruct (_ && _); [reflexivity|]. rewrite L, L', !Nat.ltb_irrefl. f_equal. apply mk3_ext. intros w j k.
  exact (H (fun l => at3 (let lam0 := fmul l (fadd (Fin 1) z) in
          if fgtb mx (Fin 0) then
            gauss_line I4 wref V sg nW nz ny nx dz
              (fun v => fmul lam0 (fadd (Fin 1) (fdiv v (Fin c_kms))))
              (fun s => fmul (fdiv s (Fin c_kms)) lam0)
          else I_simple_collapse I V wave nW nz ny nx dz lam0) w j k)).
Qed.

Lemma setup_alike c rest ratio : nth_error (g_rest (c_gal c)) 0 = nth_error rest 0 -> forall th,
  setup_calcs (with_lines rest ratio c) th = setup_calcs c th.
Proof.
  intros N th. unfold setup_calcs. replace (setup_model_grid (with_lines rest ratio c) th) with (setup_model_grid c th); [reflexivity|].
  destruct c as [g ins o p], g as [gq gq0 gd gr gw gm re ra da]. unfold with_lines, setup_model_grid. cbn [c_gal c_ins c_opt c_prof g_q g_q0 g_dPA g_rows g_wave g_m0 g_rest g_ratio g_data] in *.
  replace (getn rest 0) with (getn re 0); [reflexivity|]. destruct re, rest; cbn in *; congruence.
Qed.

Lemma calcs_alike c rest ratio : lines_alike (g_rest (c_gal c)) (g_ratio (c_gal c)) rest ratio -> forall a,
  do_model_calcs (with_lines rest ratio c) a = do_model_calcs c a.
Proof.
  intros H a.
  assert (Q : forall a, calculate_spectral_cube (with_lines rest ratio c) a = calculate_spectral_cube c a).
  { intros x. destruct c as [g ins o p], g as [gq gq0 gd gr gw gm re ra da]. cbn [c_gal g_rest g_ratio] in H. unfold with_lines.
    cbn [c_gal c_ins c_opt c_prof g_q g_q0 g_dPA g_rows g_wave g_m0 g_rest g_ratio g_data].
    unfold calculate_spectral_cube. cbn [c_gal c_ins c_opt c_prof g_q g_q0 g_dPA g_rows g_wave g_m0 g_rest g_ratio g_data].
    unfold bindS, getS. cbv beta iota zeta.
    change (sigma_options {| c_gal := mkgal gq gq0 gd gr gw gm rest ratio da; c_ins := ins; c_opt := o; c_prof := p |})
      with (sigma_options {| c_gal := mkgal gq gq0 gd gr gw gm re ra da; c_ins := ins; c_opt := o; c_prof := p |}).
    destruct (sigma_options _ x) as [x1 [u1|]]; [|reflexivity].
    change (shift_cache {| c_gal := mkgal gq gq0 gd gr gw gm rest ratio da; c_ins := ins; c_opt := o; c_prof := p |})
      with (shift_cache {| c_gal := mkgal gq gq0 gd gr gw gm re ra da; c_ins := ins; c_opt := o; c_prof := p |}).
    destruct (shift_cache _ x1) as [x2 [u2|]]; [|reflexivity].
    match goal with |- context [shift_V ?A x2 ?B] => change (shift_V A x2 B) with (shift_V (mkcfg (mkgal gq gq0 gd gr gw gm re ra da) ins o p) x2 (V_cube (mkcfg (mkgal gq gq0 gd gr gw gm re ra da) ins o p) x)) end.
    destruct (shift_V _ _ _) as [V2|]; [|reflexivity]. cbn [liftR]. rewrite (cube_alike _ _ _ _ _ _ _ _ _ _ _ _ _ _ _ _ _ H). reflexivity. }
  unfold do_model_calcs. unfold bindS.
  change (update_theta (with_lines rest ratio c)) with (update_theta c).
  change (o_adapt (c_opt (with_lines rest ratio c))) with (o_adapt (c_opt c)).
  change (check_do_upsample_wave (with_lines rest ratio c)) with (check_do_upsample_wave c).
  destruct (update_theta c a) as [a1 [u|]]; [|reflexivity].
  destruct ((if o_adapt (c_opt c) then check_do_upsample_wave c else ret tt) a1) as [a2 [u2|]]; [|reflexivity].
  rewrite Q. reflexivity.
Qed.

Lemma new_alike c rest ratio : lines_alike (g_rest (c_gal c)) (g_ratio (c_gal c)) rest ratio -> forall th st,
  aper_new (with_lines rest ratio c) th st = aper_new c th st.
Proof.
  intros H th st. unfold aper_new. pose proof H as (_&_&N&_). rewrite setup_alike by exact N.
  destruct (setup_calcs c th) as [a0|]; [|reflexivity]. now rewrite calcs_alike.
Qed.

Lemma upd_alike c rest ratio : lines_alike (g_rest (c_gal c)) (g_ratio (c_gal c)) rest ratio -> forall k,
  km_update_aper (with_lines rest ratio c) k = km_update_aper c k.
Proof.
  intros H k. unfold km_update_aper. destruct (k_aper k) as [a|]; [|reflexivity].
  unfold aper_update, bindS. cbn [modS]. rewrite calcs_alike by exact H. reflexivity.
Qed.

Lemma kin_alike c rest ratio : lines_alike (g_rest (c_gal c)) (g_ratio (c_gal c)) rest ratio ->
  (forall th st, aper_new (with_lines rest ratio c) th st = aper_new c th st) /\
  (forall tf k, km_make (with_lines rest ratio c) tf k = km_make c tf k) /\
  forall tfs k, likelihoods (with_lines rest ratio c) k tfs = likelihoods c k tfs.
Proof.
  intros H. split; [now apply new_alike|]. split.
  - intros tf k. unfold km_make. destruct (negb _); [reflexivity|]. destruct (update_parameters _ _ _) as [th [u|]]; [|reflexivity].
    cbn [k_aper k_stamp]. destruct (k_aper k); [now apply upd_alike|]. rewrite new_alike by exact H. reflexivity.
  - induction tfs as [|tf r IH]; intros k; [reflexivity|]. cbn [likelihoods].
    replace (km_llike (with_lines rest ratio c) k tf) with (km_llike c k tf); [destruct (km_llike c k tf); now rewrite IH|].
    unfold km_llike, km_update. destruct (negb _); [reflexivity|]. destruct (update_parameters _ _ _) as [th [u|]]; [|reflexivity].
    rewrite upd_alike by exact H. reflexivity.
Qed.

Lemma lines_order c rest ratio :
  length (g_ratio (c_gal c)) = length (g_rest (c_gal c)) -> length ratio = length rest ->
  Permutation (combine (g_rest (c_gal c)) (g_ratio (c_gal c))) (combine rest ratio) ->
  nth_error (g_rest (c_gal c)) 0 = nth_error rest 0 ->
  (forall th st, aper_new (with_lines rest ratio c) th st = aper_new c th st) /\
  (forall tf k, km_make (with_lines rest ratio c) tf k = km_make c tf k) /\
  forall tfs k, likelihoods (with_lines rest ratio c) k tfs = likelihoods c k tfs.
Proof.
  intros L L' P N. apply kin_alike. split; [exact L|]. split; [exact L'|]. split; [exact N|]. intros F. now apply perm_sum.
Qed.

Lemma lines_merge c A B ra rb lam a b :
  length ra = length A -> length rb = length B -> 0 < a -> 0 < b ->
  let one := with_lines (A ++ lam :: B) (ra ++ Fin (a + b) :: rb) c in
  let two := with_lines (A ++ lam :: lam :: B) (ra ++ Fin a :: Fin b :: rb) c in
  (forall th st, aper_new two th st = aper_new one th st) /\
  (forall tf k, km_make two tf k = km_make one tf k) /\
  forall tfs k, likelihoods two k tfs = likelihoods one k tfs.
Proof.
  intros LA LB Ha Hb one two. change two with (with_lines (A ++ lam :: lam :: B) (ra ++ Fin a :: Fin b :: rb) one).
  apply kin_alike. unfold one, with_lines. cbn [c_gal g_rest g_ratio].
  split; [rewrite !app_length; cbn [length]; lia|]. split; [rewrite !app_length; cbn [length]; lia|].
  split; [destruct A; reflexivity|]. intros F. symmetry. now apply merge_sum.
Qed.
