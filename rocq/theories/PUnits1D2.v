(* Proofs: the whole 1-D fit in other units. *)
From Coq Require Import String Reals Lra Lia List Bool Arith ZArith FunctionalExtensionality.
From Verif Require Import PyFloat PyBase Arr PyNum MKernels MMask MAper1D MPost MIo MTrim MFit1D SUnits1D PBright PUnits1D.
Import ListNotations.
Local Open Scope R_scope.

(** Percentiles of scaled samples. *)
Lemma fleb_s k x y : 0 < k -> fleb (s k x) (s k y) = fleb x y.
Proof.
  intros K. destruct x, y; rewrite ?(s_PInf k K), ?(s_NInf k K), ?s_NaN, ?s_Fin; try reflexivity. cbn [fleb].
  destruct (Rleb r r0) eqn:E; [apply Rleb_true in E; apply Rleb_true; nra|apply Rleb_false in E; apply Rleb_false; nra].
Qed.
Lemma finsert_s k x l : 0 < k -> finsert (s k x) (map (s k) l) = map (s k) (finsert x l).
Proof.
  intros K. induction l as [|y l IH]; [reflexivity|]. cbn [map finsert]. rewrite fleb_s by exact K. destruct (fleb x y); [reflexivity|]. cbn [map]. now rewrite IH.
Qed.
Lemma fsort_s k l : 0 < k -> fsort (map (s k) l) = map (s k) (fsort l).
Proof. intros K. induction l as [|x l IH]; [reflexivity|]. cbn [map fsort fold_right]. unfold fsort in IH. rewrite IH. now apply finsert_s. Qed.
Lemma lnth_s k l i : lnth (map (s k) l) i = s k (lnth l i).
Proof. unfold lnth. change NaN with (s k NaN) at 1. apply map_nth. Qed.
Lemma percentile_s k q l : 0 < k -> percentile q (map (s k) l) = s k (percentile q l).
Proof.
  intros K. unfold percentile. assert (E : existsb isnan (map (s k) l) = existsb isnan l) by (clear - K; induction l as [|x l IH]; [reflexivity|]; cbn [map existsb]; now rewrite IH, (s_isnan k K)).
  rewrite E. destruct (existsb isnan l); [reflexivity|]. cbv zeta. rewrite map_length, fsort_s by exact K. rewrite !lnth_s, (s_sub k K), (s_mul k K). apply (s_add k K).
Qed.

Section Fit.
Variables a b : R.
Hypothesis A : 0 < a.
Hypothesis B : 0 < b.
Variables (T' : lib) (M : optimiser) (rnd : nat -> nat -> fl) (c : cfg1) (o : opts1).
Hypothesis L : lines_in a (t_lib c) T'.
Hypothesis FM : follows_units a b M.
Let c' := cfg_in a b T' c.
Let n := length (t_names c).
Notation S := (fit_in a b n).

(** Running in the new units is converting the run in the old ones. *)
Definition good (st : st1) : Prop := o_reload_errors o = true -> forall m, f_file st = Some m -> cols m <> 1%nat.
Definition sim {X Y} (Q : X -> Prop) (g : X -> Y) (m : ST st1 X) (m' : ST st1 Y) : Prop := forall st, good st ->
  m' (S st) = (S (fst (m st)), rmap g (snd (m st))) /\ good (fst (m st)) /\ (forall x, snd (m st) = Ok x -> Q x).
Definition any {X} (_ : X) : Prop := True.
Lemma sim_bind {X Y X2 Y2} (Q : X -> Prop) (Q2 : X2 -> Prop) (g : X -> Y) (h : X2 -> Y2) m m' k k' :
  sim Q g m m' -> (forall x, Q x -> sim Q2 h (k x) (k' (g x))) -> sim Q2 h (bindS m k) (bindS m' k').
Proof.
  intros E F st G. destruct (E st G) as (E1 & E2 & E3). unfold bindS. rewrite E1. destruct (m st) as [st1 [x|e]]; cbn [fst snd rmap] in *.
  - apply F; auto.
  - repeat split; auto. intros x W. discriminate W.
Qed.
Lemma sim_ret {X Y} (g : X -> Y) x y : y = g x -> sim any g (ret x) (ret y).
Proof. intros -> st G. repeat split; auto. Qed.
Lemma sim_raise {X Y} (Q : X -> Prop) (g : X -> Y) e : sim Q g (raise e) (raise e).
Proof. intros st G. repeat split; auto. intros x W. discriminate W. Qed.
Lemma sim_get : sim any S getS getS.
Proof. intros st G. repeat split; auto. Qed.
Lemma sim_mod f f' : (forall st, f' (S st) = S (f st)) -> (forall st, good st -> good (f st)) -> sim any (fun x => x) (modS f) (modS f').
Proof. intros E F st G. unfold modS. rewrite E. repeat split; auto. now apply F. Qed.
Lemma sim_lift {X Y} (Q : X -> Prop) (g : X -> Y) r r' : r' = rmap g r -> (forall x, r = Ok x -> Q x) -> sim Q g (liftR r) (liftR r').
Proof. intros -> F st G. repeat split; auto. Qed.

Lemma wave_in : first_wave c' = rmap (Rmult a) (first_wave c).
Proof.
  unfold first_wave. cbn [c' cfg_in t_restw]. unfold getn at 1 3. rewrite nth_error_map. destruct (nth_error (t_restw c) 0) as [l|]; [|reflexivity].
  cbn [option_map bind]. unfold getn. rewrite nth_error_map. now destruct (nth_error l 0).
Qed.
Lemma z_in z : z_par c' z = z_par c z.
Proof.
  unfold z_par. rewrite wave_in. destruct (first_wave c) as [w|e]; [|reflexivity]. cbn [rmap bind c' cfg_in t_gz t_del].
  change (Fin (a * w)) with (s a (Fin w)). now rewrite (s_div_both a A).
Qed.
Lemma items_times k x m : items (option_map (times k) x) m = rmap (times k) (items x m).
Proof.
  unfold items. assert (G : forall i, match option_map (times k) x with None => Err TypeError | Some l => getn l i end =
    rmap (s k) (match x with None => Err TypeError | Some l => getn l i end)).
  { intros i. destruct x as [l|]; [|reflexivity]. cbn [option_map]. unfold getn, times. rewrite nth_error_map. now destruct (nth_error l i). }
  induction (seq 0 m) as [|i is_ IH]; [reflexivity|]. cbn [mapM]. rewrite IH, G. destruct (match x with None => Err TypeError | Some l => getn l i end); [|reflexivity].
  cbn [rmap bind]. match goal with |- context [rmap (times k) ?e] => destruct e end; reflexivity.
Qed.
Lemma items_coeffs x m : forall k, mapM (fun i => match option_map (coeffs_in a b) x with None => Err TypeError | Some l => getn l i end) (seq k m) =
  rmap (mapi_from k (fun i y => s (cont_factor a b i) y)) (mapM (fun i => match x with None => Err TypeError | Some l => getn l i end) (seq k m)).
Proof.
  assert (G : forall i, match option_map (coeffs_in a b) x with None => Err TypeError | Some l => getn l i end =
    rmap (s (cont_factor a b i)) (match x with None => Err TypeError | Some l => getn l i end)).
  { intros i. destruct x as [l|]; [|reflexivity]. cbn [option_map]. unfold getn, coeffs_in, mapi. rewrite mapi_from_nth_error. cbn [Nat.add]. now destruct (nth_error l i). }
  induction m as [|m IH]; intros k; [reflexivity|]. cbn [seq mapM]. rewrite IH, G. destruct (match x with None => Err TypeError | Some l => getn l k end); [|reflexivity].
  cbn [rmap bind]. now destruct (mapM _ (seq (Datatypes.S k) m)).
Qed.
Lemma par_unbounded k v : 0 < k -> unbounded (s k v) = par_times k (unbounded v).
Proof. intros K. unfold unbounded, par_times. cbn [p_val p_lo p_hi]. now rewrite (s_NInf k K), (s_PInf k K). Qed.
Lemma par_nonneg k v : 0 < k -> nonneg (s k v) = par_times k (nonneg v).
Proof. intros K. unfold nonneg, par_times. cbn [p_val p_lo p_hi]. rewrite (s_PInf k K), s_Fin. now rewrite Rmult_0_r. Qed.
Lemma map_mapi_from {X Y Z} (f : Y -> Z) (g : nat -> X -> Y) : forall l k, map f (mapi_from k g l) = mapi_from k (fun i x => f (g i x)) l.
Proof. induction l as [|x l IH]; intros k; [reflexivity|]. cbn. now rewrite IH. Qed.
Lemma mapi_map_from {X Y Z} (f : nat -> Y -> Z) (g : X -> Y) : forall l k, mapi_from k f (map g l) = mapi_from k (fun i x => f i (g x)) l.
Proof. induction l as [|x l IH]; intros k; [reflexivity|]. cbn. now rewrite IH. Qed.
Lemma mapi_from_fext {X Y} (f g : nat -> X -> Y) : (forall i x, f i x = g i x) -> forall l k, mapi_from k f l = mapi_from k g l.
Proof. intros E. induction l as [|x l IH]; intros k; [reflexivity|]. cbn. now rewrite E, IH. Qed.

Lemma prm_of z vd (bnd : bool) fs cs :
  mkPrm z vd (map (if bnd then nonneg else unbounded) (times (a * b) fs)) (map unbounded (mapi_from 0 (fun i y => s (cont_factor a b i) y) cs)) =
  prm_in a b (mkPrm z vd (map (if bnd then nonneg else unbounded) fs) (map unbounded cs)).
Proof.
  unfold prm_in. cbn [m_z m_vd m_flux m_cont]. f_equal.
  - unfold times. rewrite !map_map. apply map_ext. intros f. destruct bnd; [apply par_nonneg|apply par_unbounded]; now apply AB.
  - unfold mapi. rewrite map_mapi_from, mapi_map_from. apply mapi_from_fext. intros i y. apply par_unbounded. now apply CF.
Qed.
Lemma params_in st fb vb : make_params c' (S st) fb vb = rmap (prm_in a b) (make_params c st fb vb).
Proof.
  unfold make_params. cbn [fit_in f_z f_vd f_flux f_cont]. rewrite z_in. destruct (z_par c (f_z st)) as [z|e]; [|reflexivity]. cbn [bind].
  change (t_names c') with (t_names c). change (t_order c') with (t_order c). rewrite items_times. destruct (items (f_flux st) _) as [fs|e]; [|reflexivity]. cbn [rmap bind].
  unfold items at 1 2. rewrite items_coeffs. destruct (mapM _ (seq 0 (t_order c + 1))) as [cs|e]; [|reflexivity]. cbn [rmap bind]. f_equal. apply prm_of.
Qed.
Lemma rf_in x data err mask q : resid_fun c' (times a x) (option_map (times b) data) (option_map (times b) err) mask (prm_in a b q) = resid_fun c x data err mask q.
Proof. unfold resid_fun. now apply resid_in. Qed.
Lemma M_in x data err mask p : M (resid_fun c' (times a x) (option_map (times b) data) (option_map (times b) err) mask) (prm_in a b p) =
  rmap (prm_in a b) (M (resid_fun c x data err mask) p).
Proof. apply FM. intros q. apply rf_in. Qed.
Lemma neg_s k x : 0 < k -> fltb (s k x) (Fin 0) = fltb x (Fin 0).
Proof. intros K. rewrite <- (s_ltb k K x (Fin 0)). rewrite s_Fin. now rewrite Rmult_0_r. Qed.
Lemma best_in st x data err mask : best_params M c' (S st) (times a x) (option_map (times b) data) (option_map (times b) err) mask =
  rmap (prm_in a b) (best_params M c st x data err mask).
Proof.
  unfold best_params. cbv zeta. rewrite params_in. destruct (make_params c st false false) as [p|e]; [|reflexivity]. cbn [rmap bind]. rewrite M_in.
  destruct (M (resid_fun c x data err mask) p) as [r|e]; [|reflexivity]. cbn [rmap bind]. cbn [prm_in m_flux m_vd]. rewrite pval_times.
  destruct (pval (m_flux r) 0) as [f0|e]; [|reflexivity]. cbn [rmap bind]. rewrite neg_s by now apply AB.
  destruct (fltb (p_val (m_vd r)) (Fin 0)), (fltb f0 (Fin 0)); cbn [andb]; try reflexivity;
  rewrite params_in; destruct (make_params c st _ _) as [p'|e]; try reflexivity; cbn [rmap bind]; apply M_in.
Qed.
Definition values_in (l : list fl) : list fl := mapi (fun j v => s (column_factor a b n j) v) l.
Lemma values_eq z vd fs cs : length fs = n -> z :: vd :: times (a * b) fs ++ mapi_from 0 (fun i y => s (cont_factor a b i) y) cs = values_in (z :: vd :: fs ++ cs).
Proof.
  intros E. unfold values_in, mapi. cbn [mapi_from]. unfold column_factor at 1 2. cbn [Nat.ltb Nat.leb]. rewrite !s_one. f_equal. f_equal.
  assert (G : forall l k, (2 <= k)%nat -> (k + length l = n + 2)%nat -> mapi_from k (fun j v => s (column_factor a b n j) v) (l ++ cs) =
    times (a * b) l ++ mapi_from (n + 2) (fun j v => s (column_factor a b n j) v) cs).
  { induction l as [|v l IH]; intros k K1 K2; [cbn in K2 |- *; now replace k with (n + 2)%nat by lia|]. cbn [app mapi_from times map length] in *. rewrite IH by lia. f_equal.
    unfold column_factor. destruct (Nat.ltb_spec k 2); [lia|]. destruct (Nat.ltb_spec k (n + 2)); [reflexivity|lia]. }
  rewrite (G fs 2%nat) by lia. f_equal.
  assert (G2 : forall l k, mapi_from k (fun i y => s (cont_factor a b i) y) l = mapi_from (n + 2 + k) (fun j v => s (column_factor a b n j) v) l).
  { induction l as [|v l IH]; intros k; [reflexivity|]. cbn [mapi_from]. rewrite IH. replace (n + 2 + Datatypes.S k)%nat with (Datatypes.S (n + 2 + k)) by lia. f_equal. f_equal. f_equal.
    unfold column_factor. destruct (Nat.ltb_spec (n + 2 + k) 2); [lia|]. destruct (Nat.ltb_spec (n + 2 + k) (n + 2)); [lia|]. f_equal. lia. }
  rewrite (G2 cs 0%nat). now rewrite Nat.add_0_r.
Qed.
Lemma pvals_len l k r : pvals l k = Ok r -> length r = k.
Proof.
  unfold pvals. intros E. rewrite <- (seq_length k 0). revert r E. induction (seq 0 k) as [|i is_ IH]; intros r E; [injection E as <-; reflexivity|].
  cbn [mapM] in E. destruct (pval l i); [|discriminate]. cbn [bind] in E. destruct (mapM (pval l) is_) as [r'|]; [|discriminate]. cbn [bind] in E. injection E as <-.
  cbn. now rewrite (IH r' eq_refl).
Qed.
Lemma all_in q : all_values c' (prm_in a b q) = rmap values_in (all_values c q).
Proof.
  unfold all_values. cbn [prm_in m_flux m_cont m_z m_vd]. change (t_names c') with (t_names c). change (t_order c') with (t_order c).
  rewrite pvals_times. destruct (pvals (m_flux q) (length (t_names c))) as [fs|e] eqn:F; [|reflexivity]. cbn [rmap bind]. unfold pvals at 1 2. rewrite pvals_cont.
  destruct (mapM _ (seq 0 (t_order c + 1))) as [cs|e]; [|reflexivity]. cbn [rmap bind]. f_equal. apply values_eq. now apply pvals_len in F.
Qed.
Lemma mc_in st x data err mask r : mc_row M c' o (S st) (times a x) (option_map (times b) data) (option_map (times b) err) mask r =
  rmap values_in (mc_row M c o st x data err mask r).
Proof.
  unfold mc_row. destruct data as [data|]; [|reflexivity]. cbn [option_map need bind]. destruct err as [err|]; [|reflexivity]. cbn [option_map need bind].
  rewrite !times_len. destruct (Nat.eqb (length data) (length err)); [|reflexivity]. cbn [bind]. cbn [fit_in f_z f_vd f_flux f_cont]. rewrite z_in.
  destruct (z_par c (f_z st)) as [z|e]; [|reflexivity]. cbn [bind]. change (t_names c') with (t_names c). change (t_order c') with (t_order c). rewrite items_times.
  destruct (items (f_flux st) _) as [fs|e]; [|reflexivity]. cbn [rmap bind]. unfold items at 1 2. rewrite items_coeffs.
  destruct (mapM _ (seq 0 (t_order c + 1))) as [cs|e]; [|reflexivity]. cbn [rmap bind]. rewrite (prm_of z (unbounded (f_vd st)) false fs cs).
  assert (E : mapi (fun i d => fadd d (fmul (lnth (times b err) i) (r i))) (times b data) = times b (mapi (fun i d => fadd d (fmul (lnth err i) (r i))) data)).
  { unfold mapi, times. rewrite mapi_map_from, map_mapi_from. apply mapi_from_fext. intros i d. now rewrite lnth_s, (s_mul b B), (s_add b B). }
  rewrite E. rewrite (M_in x (Some (mapi (fun i d => fadd d (fmul (lnth err i) (r i))) data)) (Some err) mask).
  destruct (M _ _) as [q|e]; [|reflexivity]. cbn [rmap bind]. change (t_lib c') with T'. rewrite (model_in a b A B (t_lib c) T' _ _ _ _ L).
  destruct (o_noPlot o); cbn [bind]; [apply all_in|]. destruct (spectrum_model (t_lib c) (t_names c) (t_order c) q x); [|reflexivity]. cbn [rmap bind]. apply all_in.
Qed.
Lemma mcs_in st x data err mask is_ : mapM (fun i => mc_row M c' o (S st) (times a x) (option_map (times b) data) (option_map (times b) err) mask (rnd i)) is_ =
  rmap (map values_in) (mapM (fun i => mc_row M c o st x data err mask (rnd i)) is_).
Proof.
  induction is_ as [|i is_ IH]; [reflexivity|]. cbn [mapM]. rewrite mc_in, IH. destruct (mc_row M c o st x data err mask (rnd i)); [|reflexivity]. cbn [rmap bind].
  match goal with |- context [rmap (map values_in) ?e] => destruct e end; reflexivity.
Qed.

Lemma values_len l : length (values_in l) = length l.
Proof. unfold values_in, mapi. generalize 0%nat. induction l as [|x l IH]; intros k; [reflexivity|]. cbn. now rewrite IH. Qed.
Lemma values_lnth l j : lnth (values_in l) j = s (column_factor a b n j) (lnth l j).
Proof.
  unfold lnth, values_in, mapi. rewrite <- (map_nth (s (column_factor a b n j))). change (s (column_factor a b n j) NaN) with NaN.
  destruct (Nat.ltb_spec j (length l)) as [H|H].
  - apply nth_error_nth. rewrite mapi_from_nth_error. cbn [Nat.add]. destruct (nth_error l j) eqn:E; [|apply nth_error_None in E; lia]. cbn [option_map]. f_equal.
    rewrite (nth_indep _ NaN (s (column_factor a b n j) NaN)) by now rewrite map_length. rewrite map_nth. f_equal. symmetry. now apply nth_error_nth.
  - rewrite !nth_overflow; auto; [now rewrite map_length|]. change (length (values_in l) <= j)%nat. now rewrite values_len.
Qed.
Lemma matrix_in k l : matrix k (map values_in l) = file_in a b n (matrix k l).
Proof.
  unfold matrix, file_in. cbn [rows cols]. rewrite map_length. apply mk2_ext. intros i j. cbn [at2].
  change [] with (values_in []) at 1. rewrite map_nth. apply values_lnth.
Qed.
Lemma col_in m j : (j < cols m)%nat -> col (file_in a b n m) j = map (s (column_factor a b n j)) (col m j).
Proof.
  intros H. unfold col, file_in. cbn [rows]. rewrite map_map. apply map_ext_in. intros i I. apply in_seq in I. reflexivity.
Qed.
Lemma cf_pos j : 0 < column_factor a b n j.
Proof. unfold column_factor. destruct (Nat.ltb j 2); [lra|]. destruct (Nat.ltb j (n + 2)); [now apply AB|now apply CF]. Qed.
Lemma perc_in m q : percentiles (file_in a b n m) q = rmap values_in (percentiles m q).
Proof.
  unfold percentiles. cbn [file_in rows cols]. destruct (Nat.eqb (rows m) 0); [reflexivity|]. cbn [rmap]. f_equal. unfold values_in, mapi.
  assert (G : forall len k, (k + len <= cols m)%nat -> map (fun j => percentile q (col (file_in a b n m) j)) (seq k len) =
    mapi_from k (fun j v => s (column_factor a b n j) v) (map (fun j => percentile q (col m j)) (seq k len))).
  { induction len as [|len IH]; intros k K; [reflexivity|]. cbn [seq map mapi_from]. rewrite IH by lia. f_equal. rewrite col_in by lia. apply percentile_s, cf_pos. }
  apply G. lia.
Qed.
Lemma perc_len m q l : percentiles m q = Ok l -> length l = cols m.
Proof. unfold percentiles. destruct (Nat.eqb (rows m) 0); intros Q; [discriminate Q|]. injection Q as <-. now rewrite map_length, seq_length. Qed.
Lemma sub_in x y : length x = length y -> map (fun p => fsub (fst p) (snd p)) (combine (values_in x) (values_in y)) = values_in (map (fun p => fsub (fst p) (snd p)) (combine x y)).
Proof.
  unfold values_in, mapi. generalize 0%nat. revert y. induction x as [|u x IH]; intros [|v y] k E; try reflexivity. cbn [mapi_from combine map fst snd].
  rewrite IH by (now injection E). f_equal. apply s_sub, cf_pos.
Qed.
Lemma bsub_in x y : length x <> 1%nat -> length y <> 1%nat -> bsub (values_in x) (values_in y) = rmap values_in (bsub x y).
Proof.
  intros X Y. unfold bsub. rewrite !values_len. destruct (Nat.eqb_spec (length x) (length y)) as [E|E]; [cbn [rmap]; f_equal; now apply sub_in|].
  destruct x as [|x0 [|x1 x]], y as [|y0 [|y1 y]]; cbn in X, Y, E; try lia; reflexivity.
Qed.
Definition pairs_in (l : list (fl * fl)) := mapi (fun j p => pair_times (column_factor a b n j) p) l.
Lemma pairs_eq x y : combine (values_in x) (values_in y) = pairs_in (combine x y).
Proof.
  unfold values_in, pairs_in, mapi. generalize 0%nat. revert y. induction x as [|u x IH]; intros [|v y] k; try reflexivity. cbn [mapi_from combine]. now rewrite IH.
Qed.
Lemma skipn_mapi {X Y} (f : nat -> X -> Y) : forall m l k, skipn m (mapi_from k f l) = mapi_from (k + m) f (skipn m l).
Proof.
  induction m as [|m IH]; intros [|x l] k; cbn [skipn mapi_from]; rewrite ?Nat.add_0_r; try reflexivity. rewrite IH. now replace (Datatypes.S k + m)%nat with (k + Datatypes.S m)%nat by lia.
Qed.
Lemma firstn_mapi {X Y} (f : nat -> X -> Y) : forall m l k, firstn m (mapi_from k f l) = mapi_from k f (firstn m l).
Proof. induction m as [|m IH]; intros [|x l] k; cbn [firstn mapi_from]; try reflexivity. now rewrite IH. Qed.
Lemma nth_pairs i l : (i < 2)%nat -> nth i (pairs_in l) (NaN, NaN) = nth i l (NaN, NaN).
Proof.
  intros I. assert (P : forall p, pair_times 1 p = p) by (intros [u v]; unfold pair_times; cbn [fst snd]; now rewrite !s_one).
  unfold pairs_in, mapi. destruct i as [|[|i]]; [| |lia]; destruct l as [|p [|q l]]; cbn [mapi_from nth]; unfold column_factor; cbn [Nat.ltb Nat.leb]; rewrite ?P; reflexivity.
Qed.
Lemma flux_pairs l : firstn n (skipn 2 (pairs_in l)) = map (pair_times (a * b)) (firstn n (skipn 2 l)).
Proof.
  unfold pairs_in, mapi. rewrite skipn_mapi, firstn_mapi. cbn [Nat.add].
  assert (G : forall r k, (2 <= k)%nat -> (k + length r <= n + 2)%nat -> mapi_from k (fun j p => pair_times (column_factor a b n j) p) r = map (pair_times (a * b)) r).
  { induction r as [|p r IH]; intros k K1 K2; [reflexivity|]. cbn [mapi_from map length] in *. rewrite IH by lia. f_equal. f_equal. unfold column_factor.
    destruct (Nat.ltb_spec k 2); [lia|]. destruct (Nat.ltb_spec k (n + 2)); [reflexivity|lia]. }
  apply G; [lia|]. pose proof (firstn_le_length n (skipn 2 l)). lia.
Qed.
Lemma cont_pairs m l : firstn m (skipn (n + 2) (pairs_in l)) = mapi (fun i x => pair_times (cont_factor a b i) x) (firstn m (skipn (n + 2) l)).
Proof.
  unfold pairs_in, mapi. rewrite skipn_mapi, firstn_mapi. cbn [Nat.add].
  assert (G2 : forall r k, mapi_from (n + 2 + k) (fun j p => pair_times (column_factor a b n j) p) r = mapi_from k (fun i x => pair_times (cont_factor a b i) x) r).
  { induction r as [|v r IH]; intros k; [reflexivity|]. cbn [mapi_from]. rewrite <- IH. replace (n + 2 + Datatypes.S k)%nat with (Datatypes.S (n + 2 + k)) by lia. f_equal. f_equal.
    unfold column_factor. destruct (Nat.ltb_spec (n + 2 + k) 2); [lia|]. destruct (Nat.ltb_spec (n + 2 + k) (n + 2)); [lia|]. f_equal. lia. }
  rewrite <- (G2 _ 0%nat). now rewrite Nat.add_0_r.
Qed.
Lemma zero_pairs (f : nat -> R) m : forall k, mapi_from k (fun i x => pair_times (f i) x) (repeat (Fin 0, Fin 0) m) = repeat (Fin 0, Fin 0) m.
Proof. induction m as [|m IH]; intros k; [reflexivity|]. cbn [repeat mapi_from]. rewrite IH. f_equal. unfold pair_times. cbn [fst snd]. rewrite s_Fin. now rewrite Rmult_0_r. Qed.
Lemma zero_coeffs m : coeffs_in a b (repeat (Fin 0) m) = repeat (Fin 0) m.
Proof. unfold coeffs_in, mapi. generalize 0%nat. induction m as [|m IH]; intros k; [reflexivity|]. cbn [repeat mapi_from]. rewrite IH. f_equal. rewrite s_Fin. now rewrite Rmult_0_r. Qed.
Lemma zero_map m : map (pair_times (a * b)) (repeat (Fin 0, Fin 0) m) = repeat (Fin 0, Fin 0) m.
Proof. induction m as [|m IH]; [reflexivity|]. cbn [repeat map]. rewrite IH. f_equal. unfold pair_times. cbn [fst snd]. rewrite s_Fin. now rewrite Rmult_0_r. Qed.

Lemma sim_same {X} (r : res X) : sim any (fun x => x) (liftR r) (liftR r).
Proof. apply sim_lift; [now destruct r|]. intros; exact I. Qed.
Lemma sim_if {X Y} (Q : X -> Prop) (g : X -> Y) (t : bool) m m' k k' : sim Q g m m' -> sim Q g k k' -> sim Q g (if t then m else k) (if t then m' else k').
Proof. now destruct t. Qed.
Ltac keep := let st := fresh "st" in let G := fresh "G" in intros st G; exact G.
Lemma load_in : o_reload_errors o = true -> sim (fun m => cols m <> 1%nat) (file_in a b n) (load_mc (o_err_file o)) (load_mc (o_err_file o)).
Proof.
  intros R. unfold load_mc. destruct (o_err_file o); [|apply sim_raise]. intros st G. unfold bindS, getS, liftR. cbn [fst snd]. cbn [fit_in f_file].
  specialize (G R). destruct (f_file st) as [m|] eqn:F; cbn; rewrite ?F; repeat split; auto; try (intros _ m'; rewrite F; intros W; injection W as <-; now apply G);
  try (intros _ m'; rewrite F; intros W; discriminate W); try (intros x W; injection W as <-; now apply G); intros x W; discriminate W.
Qed.
Lemma fit_sim : sim any (fun x : unit => x) (fit M rnd c o) (fit M rnd c' o).
Proof.
  unfold fit. change (t_inst c') with (t_inst c). eapply sim_bind; [apply sim_same|]. intros i _.
  eapply sim_bind; [apply (sim_if any (fun x => x)); [apply sim_raise|now apply sim_ret]|]. intros _ _.
  eapply sim_bind; [apply sim_get|]. intros s0 _.
  eapply (sim_bind any any (fun x => x)).
  { cbn [fit_in f_cont]. change (t_order c') with (t_order c). destruct (f_cont s0); cbn [option_map]; [now apply sim_ret|]. apply sim_mod; [|keep]. intros st. unfold set_cont, fit_in; cbn. now rewrite zero_coeffs. }
  intros _ _. eapply sim_bind; [apply sim_get|]. intros s1 _.
  eapply (sim_bind any); [apply sim_lift; [apply params_in|intros; exact I]|]. intros p0 _.
  eapply (sim_bind any _ (times a)); [apply sim_lift; [|intros; exact I]|].
  { cbn [c' cfg_in t_spec spec_in s_obs]. now destruct (s_obs (t_spec c)). }
  intros x _. cbv zeta. change (s_flux (t_spec c')) with (option_map (times b) (s_flux (t_spec c))). change (s_err (t_spec c')) with (option_map (times b) (s_err (t_spec c))).
  change (s_mask (t_spec c')) with (s_mask (t_spec c)). change (t_names c') with (t_names c). change (t_order c') with (t_order c). change (t_lib c') with T'.
  change (t_id c') with (t_id c). change (t_label c') with (t_label c). change (t_nmc c') with (t_nmc c).
  eapply (sim_bind any); [apply sim_lift; [apply best_in|intros; exact I]|]. intros r _.
  eapply (sim_bind any); [apply sim_lift; [now apply model_in|intros; exact I]|]. intros fm _.
  eapply sim_bind; [apply sim_mod; [|keep]; reflexivity|]. intros _ _.
  eapply sim_bind; [apply sim_mod; [|keep]; reflexivity|]. intros _ _.
  eapply sim_bind; [apply sim_mod; [|keep]; reflexivity|]. intros _ _.
  eapply (sim_bind any); [apply sim_lift; [unfold pvals; apply pvals_cont|intros; exact I]|]. intros cs _.
  eapply sim_bind; [apply sim_mod; [|keep]; reflexivity|]. intros _ _.
  eapply (sim_bind (fun fs => length fs = n)); [apply sim_lift; [apply pvals_times|intros fs; apply pvals_len]|]. intros fs Hfs.
  eapply sim_bind; [apply sim_mod; [|keep]; reflexivity|]. intros _ _.
  change (p_val (m_z (prm_in a b r))) with (p_val (m_z r)). change (p_val (m_vd (prm_in a b r))) with (p_val (m_vd r)). rewrite (values_eq _ _ fs cs Hfs).
  set (tr := p_val (m_z r) :: p_val (m_vd r) :: fs ++ cs).
  eapply sim_bind; [apply sim_same|]. intros _ _.
  eapply sim_bind; [apply (sim_if any (fun x => x)); [apply sim_raise|now apply sim_ret]|]. intros _ _.
  apply sim_if.
  { eapply sim_bind; [apply sim_mod; [|keep]|]. 
    { intros st. unfold set_errs, fit_in, errs_in; cbn [f_z f_vd f_flux f_cont f_model f_errs f_file f_corr f_corr_err option_map e_z e_vd e_flux e_cont]. rewrite zero_map. unfold mapi. now rewrite zero_pairs. }
    intros _ _. apply sim_if; [apply sim_raise|now apply sim_ret]. }
  rewrite values_len.
  assert (LT : (length tr > 1)%nat) by (unfold tr; cbn; lia).
  eapply (sim_bind (fun m => cols m <> 1%nat) any (file_in a b n)).
  { destruct (o_reload_errors o) eqn:R; [now apply load_in|].
    eapply sim_bind; [apply sim_get|]. intros s2 _.
    eapply (sim_bind any); [apply sim_lift; [apply mcs_in|intros; exact I]|]. intros l _. cbv zeta. rewrite matrix_in.
    eapply (sim_bind any _ (fun x => x)).
    { unfold save_mc. apply sim_if; [|apply sim_raise]. apply sim_mod; [reflexivity|]. intros st _ W. rewrite R in W. discriminate W. }
    intros _ _ st G. repeat split; auto. intros m W. injection W as <-. cbn [matrix cols]. lia. }
  intros m Hm.
  eapply (sim_bind (fun l => length l <> 1%nat)); [apply sim_lift; [apply perc_in|intros l W; apply perc_len in W; now rewrite W]|]. intros lo Hlo.
  eapply (sim_bind (fun l => length l <> 1%nat)); [apply sim_lift; [apply perc_in|intros l W; apply perc_len in W; now rewrite W]|]. intros hi Hhi.
  eapply (sim_bind any); [apply sim_lift; [apply bsub_in; [lia|exact Hlo]|intros; exact I]|]. intros e0 _.
  eapply (sim_bind any); [apply sim_lift; [apply bsub_in; [exact Hhi|lia]|intros; exact I]|]. intros e1 _.
  rewrite pairs_eq, !nth_pairs by lia. change (length (t_names c)) with n. rewrite flux_pairs, cont_pairs.
  eapply sim_bind; [apply sim_mod; [|keep]; reflexivity|]. intros _ _. apply sim_raise.
Qed.
Lemma load_any f : sim any (file_in a b n) (load_mc f) (load_mc f).
Proof.
  unfold load_mc. destruct f; [|apply sim_raise]. eapply sim_bind; [apply sim_get|]. intros st _. apply sim_lift; [|intros; exact I].
  cbn [fit_in f_file]. now destruct (f_file st).
Qed.
Lemma corr_sim noErrors f : sim any (fun x : unit => x) (inst_corr c noErrors f) (inst_corr c' noErrors f).
Proof.
  unfold inst_corr. change (t_inst c') with (t_inst c). change (t_sres c') with (t_sres c). destruct (t_inst c) as [i|]; [|now apply sim_ret].
  eapply sim_bind; [apply sim_get|]. intros st _. cbv zeta. change (f_vd (S st)) with (f_vd st).
  eapply sim_bind; [apply sim_mod; [|keep]; reflexivity|]. intros _ _.
  apply sim_if; [apply sim_mod; [|keep]; reflexivity|].
  eapply sim_bind; [apply (sim_if any (fun x => x)); [now apply sim_ret|apply sim_raise]|]. intros _ _.
  eapply sim_bind; [apply load_any|]. intros m _. cbn [file_in cols].
  destruct (Nat.ltb_spec 1 (cols m)) as [H|H].
  - assert (E : col (file_in a b n m) 1 = col m 1).
    { rewrite col_in by exact H. rewrite <- (map_id (col m 1)) at 2. apply map_ext. intros v. unfold column_factor. cbn [Nat.ltb Nat.leb]. apply s_one. }
    fold (file_in a b n m). rewrite E. eapply (sim_bind any any (fun x => x)); [now apply sim_ret|]. intros _ _. eapply sim_bind; [apply sim_same|]. intros i' _.
    eapply sim_bind; [apply (sim_if any (fun x => x)); [apply sim_raise|now apply sim_ret]|]. intros _ _.
    eapply sim_bind; [apply (sim_if any (fun x => x)); [now apply sim_ret|apply sim_raise]|]. intros _ _.
    apply sim_mod; [|keep]; reflexivity.
  - eapply (sim_bind (fun _ => False) any (fun x => x)); [apply sim_raise|]. intros x [].
Qed.
End Fit.
