(* Proofs: the summaries of a posterior do not depend on the order of the samples. *)
From Coq Require Import String Reals List Bool Arith ZArith Lia Lra Permutation.
From Verif Require Import PyFloat PyBase Arr PyNum MParams MProf MPost SParams SPost SOrder PPost PPost2 PPost3.
Import ListNotations.
Local Open Scope R_scope.

(** Sorting. *)
Lemma fleb_total x y : isnan x = false -> isnan y = false -> fleb x y = false -> fleb y x = true.
Proof.
  destruct x, y; cbn; try congruence. intros _ _ H. apply Rleb_false in H. apply Rleb_true. lra.
Qed.
Lemma fleb_antisym x y : fleb x y = true -> fleb y x = true -> x = y.
Proof.
  destruct x, y; cbn; try congruence. intros A B. apply Rleb_true in A, B. f_equal. lra.
Qed.
Lemma fleb_trans x y z : fleb x y = true -> fleb y z = true -> fleb x z = true.
Proof.
  destruct x, y, z; cbn; try congruence. intros A B. apply Rleb_true in A, B. apply Rleb_true. lra.
Qed.
Lemma finsert_comm x y : isnan x = false -> isnan y = false -> forall l, existsb isnan l = false ->
  finsert x (finsert y l) = finsert y (finsert x l).
Proof.
  intros Nx Ny. induction l as [|z l IH]; intros N.
  - cbn [finsert]. destruct (fleb x y) eqn:A, (fleb y x) eqn:B; auto.
    + now rewrite (fleb_antisym x y A B).
    + pose proof (fleb_total x y Nx Ny A). congruence.
  - cbn [existsb] in N. apply orb_false_iff in N. destruct N as [Nz N]. specialize (IH N). cbn [finsert].
    destruct (fleb x z) eqn:A, (fleb y z) eqn:B; cbn [finsert]; rewrite ?A, ?B; auto.
    + destruct (fleb x y) eqn:C, (fleb y x) eqn:D; auto.
      * now rewrite (fleb_antisym x y C D).
      * pose proof (fleb_total x y Nx Ny C). congruence.
    + destruct (fleb y x) eqn:C; auto. pose proof (fleb_trans _ _ _ C A). congruence.
    + destruct (fleb x y) eqn:C; auto. pose proof (fleb_trans _ _ _ C B). congruence.
    + now rewrite IH.
Qed.
Lemma finsert_nan x l : existsb isnan (finsert x l) = (isnan x || existsb isnan l)%bool.
Proof.
  induction l as [|y l IH]; [reflexivity|]. cbn [finsert]. destruct (fleb x y); [reflexivity|].
  cbn [existsb]. rewrite IH. destruct (isnan x), (isnan y), (existsb isnan l); reflexivity.
Qed.
Lemma fsort_nan l : existsb isnan (fsort l) = existsb isnan l.
Proof. induction l as [|x l IH]; [reflexivity|]. cbn [fsort fold_right]. rewrite finsert_nan. cbn [existsb]. unfold fsort in IH. now rewrite IH. Qed.
Lemma existsb_perm {A} (p : A -> bool) l l' : Permutation l l' -> existsb p l = existsb p l'.
Proof.
  induction 1; cbn; auto; [congruence|destruct (p x), (p y); auto|congruence].
Qed.
Lemma forallb_perm {A} (p : A -> bool) l l' : Permutation l l' -> forallb p l = forallb p l'.
Proof.
  induction 1; cbn; auto; [congruence|destruct (p x), (p y); auto|congruence].
Qed.
Lemma fsort_perm l l' : Permutation l l' -> existsb isnan l = false -> fsort l = fsort l'.
Proof.
  induction 1; intros N; auto.
  - cbn [existsb] in N. apply orb_false_iff in N. cbn. unfold fsort in IHPermutation. now rewrite IHPermutation by tauto.
  - cbn [existsb] in N. apply orb_false_iff in N. destruct N as [Ny N]. apply orb_false_iff in N. destruct N as [Nx N].
    cbn. apply finsert_comm; auto. change (existsb isnan (fsort l) = false). now rewrite fsort_nan.
  - rewrite IHPermutation1 by auto. apply IHPermutation2. now rewrite <- (existsb_perm isnan _ _ H).
Qed.
Lemma percentile_perm q l l' : Permutation l l' -> percentile q l = percentile q l'.
Proof.
  intros P. unfold percentile. rewrite <- (existsb_perm isnan _ _ P). destruct (existsb isnan l) eqn:N; auto.
  rewrite <- (fsort_perm _ _ P N), <- (Permutation_length P). reflexivity.
Qed.
Lemma where_len {A} (p : A -> bool) l : forall k, length (where_from k p l) = length (filter p l).
Proof. induction l as [|x l IH]; intros k; [reflexivity|]. cbn. destruct (p x); cbn; now rewrite IH. Qed.
Lemma filter_perm_len {A} (p : A -> bool) l l' : Permutation l l' -> length (filter p l) = length (filter p l').
Proof.
  induction 1; cbn; auto; [destruct (p x); cbn; congruence|destruct (p x), (p y); auto|congruence].
Qed.

(** Columns of reordered samples. *)
Lemma col_reordered s a b j : rows b = rows a -> rearranges (rows a) s ->
  (forall i j, (i < rows a)%nat -> (j < cols a)%nat -> at2 b i j = at2 a (s i) j) -> (j < cols a)%nat ->
  col b j = map (fun i => nth (s i) (col a j) NaN) (seq 0 (rows a)) /\ Permutation (col b j) (col a j).
Proof.
  intros R S H J.
  assert (V : forall i, (i < rows a)%nat -> (s i < rows a)%nat).
  { intros i Hi. assert (I : In (s i) (map s (seq 0 (rows a)))) by (apply in_map, in_seq; lia).
    apply (Permutation_in _ S) in I. apply in_seq in I. lia. }
  assert (E : col b j = map (fun i => at2 a (s i) j) (seq 0 (rows a))).
  { unfold col. rewrite R. apply map_ext_in. intros i Hi. apply in_seq in Hi. apply H; lia. }
  split.
  - rewrite E. apply map_ext_in. intros i Hi. apply in_seq in Hi. symmetry. unfold col.
    rewrite nth_indep with (d' := at2 a 0%nat j) by (rewrite map_length, seq_length; apply V; lia).
    rewrite (map_nth (fun i => at2 a i j)). rewrite seq_nth by (apply V; lia). reflexivity.
  - rewrite E. unfold col. rewrite <- (map_map s (fun i => at2 a i j)). now apply Permutation_map.
Qed.
Lemma col_len a j : length (col a j) = rows a.
Proof. unfold col. now rewrite map_length, seq_length. Qed.

Lemma peaks_perm K cs : (forall l l', Permutation l l' -> k_one K l = k_one K l') ->
  forall cs', Forall2 (@Permutation fl) cs cs' -> peaks K cs = peaks K cs'.
Proof.
  intros H. induction cs as [|c cs IH]; intros cs' F; inversion F as [|? c' ? cs2 P Q]; subst; [reflexivity|].
  cbn [peaks]. rewrite (Permutation_length P), (forallb_perm isfinite _ _ P), (H _ _ P), (IH _ Q). reflexivity.
Qed.

Section Reordered.
Variables (K : kde) (s : nat -> nat) (a b : arr2 fl).
Hypothesis KO : order_free K.
Hypothesis R : rows b = rows a.
Hypothesis C : cols b = cols a.
Hypothesis S : rearranges (rows a) s.
Hypothesis H : forall i j, (i < rows a)%nat -> (j < cols a)%nat -> at2 b i j = at2 a (s i) j.

Lemma cols_perm : Forall2 (@Permutation fl) (map (col b) (seq 0 (cols b))) (map (col a) (seq 0 (cols a))).
Proof.
  rewrite C. assert (G : forall l, (forall j, In j l -> (j < cols a)%nat) -> Forall2 (@Permutation fl) (map (col b) l) (map (col a) l)).
  { induction l as [|j l IH]; intros B; cbn; constructor.
    - apply (col_reordered s a b j R S H). apply B. now left.
    - apply IH. intros i Hi. apply B. now right. }
  apply G. intros j Hj. apply in_seq in Hj. lia.
Qed.
Lemma lims_perm q1 q2 : map (fun c => (percentile q1 c, percentile q2 c)) (map (col b) (seq 0 (cols b))) =
  map (fun c => (percentile q1 c, percentile q2 c)) (map (col a) (seq 0 (cols a))).
Proof.
  generalize cols_perm. generalize (map (col b) (seq 0 (cols b))), (map (col a) (seq 0 (cols a))).
  induction 1 as [|x y l l' P F IH]; [reflexivity|]. cbn. now rewrite IH, !(percentile_perm _ _ _ P).
Qed.
Lemma linked_reordered best err lims g : linked K b best err lims g = linked K a best err lims g.
Proof.
  unfold linked. rewrite C. destruct (forallb _ _) eqn:F; [|reflexivity].
  set (is_ := match g with LinkAll => _ | LinkInds l => l end) in *. destruct (take best is_) as [init|e]; [|reflexivity]. cbn [bind].
  assert (E : k_many K (map (col b) is_) init = k_many K (map (col a) is_) init).
  { rewrite <- (proj2 KO (rows a) s (map (col a) is_) init S).
    - f_equal. rewrite map_map. apply map_ext_in. intros j Hj. apply (col_reordered s a b j R S H).
      rewrite forallb_forall in F. apply F in Hj. now apply Nat.ltb_lt.
    - intros c Hc. apply in_map_iff in Hc. destruct Hc as (j & <- & _). apply col_len. }
  now rewrite E.
Qed.
Lemma groups_reordered gs : forall lims cur best e1 e2, link_groups K b gs lims cur best e1 e2 = link_groups K a gs lims cur best e1 e2.
Proof.
  induction gs as [|g gs IH]; intros; [reflexivity|]. cbn [link_groups]. rewrite linked_reordered.
  destruct (linked K a best e1 cur g) as [r1|e]; [|reflexivity]. cbn [bind]. rewrite linked_reordered.
  destruct (linked K a (fst r1) e2 lims g) as [r2|e]; [|reflexivity]. cbn [bind]. apply IH.
Qed.
End Reordered.

Lemma mapi_from_ext {A B} (f g : nat -> A -> B) : forall l k, (forall i x, (k <= i < k + length l)%nat -> f i x = g i x) -> mapi_from k f l = mapi_from k g l.
Proof.
  induction l as [|x l IH]; intros k E; [reflexivity|]. cbn. rewrite E by (cbn; lia). f_equal. apply IH. intros. apply E. cbn. lia.
Qed.

Lemma opposite_reordered s a b best : rows b = rows a -> rearranges (rows a) s ->
  (forall i j, (i < rows a)%nat -> (j < cols a)%nat -> at2 b i j = at2 a (s i) j) -> (length best <= cols a)%nat ->
  opposite b best = opposite a best.
Proof.
  intros R S H L. unfold opposite, mapi. apply mapi_from_ext. intros j x Hj.
  destruct (col_reordered s a b j R S H ltac:(lia)) as [_ P]. unfold where_. rewrite !where_len, (filter_perm_len _ _ _ P), R. reflexivity.
Qed.

Lemma posterior_reordered K links vary a b : order_free K -> reordered a b -> posterior K links vary b = posterior K links vary a.
Proof.
  intros KO (R & C & s & S & H).
  pose proof (lims_perm s a b R C S H (15865/1000) (84135/1000)) as L1.
  pose proof (lims_perm s a b R C S H (2275/1000) (97725/1000)) as L2.
  pose proof (peaks_perm K _ (proj1 KO) _ (cols_perm s a b R C S H)) as P.
  destruct (posterior K links vary a) as [p|e] eqn:E.
  - pose proof (posterior_length _ _ _ _ _ E) as LL. revert E. unfold posterior. cbv zeta. rewrite P, L1, L2.
    destruct (peaks K (map (col a) (seq 0 (cols a)))) as [best|e']; [|intros Q; discriminate Q]. cbn [bind].
    assert (X : forall r : list fl * list (fl * fl) * list (fl * fl), Ok (mkPost (fst (fst r)) (snd (fst r)) (snd r) (opposite a (fst (fst r))) (firstn (n_free_param vary) (fst (fst r)))) = Ok p ->
      Ok (mkPost (fst (fst r)) (snd (fst r)) (snd r) (opposite b (fst (fst r))) (firstn (n_free_param vary) (fst (fst r)))) = Ok p).
    { intros r Q. rewrite <- Q. do 2 f_equal. apply (opposite_reordered s a b _ R S H).
      pose proof (f_equal (fun x => match x with Ok q => p_best q | Err _ => [] end) Q) as B. cbn in B. rewrite B, LL. lia. }
    destruct links as [gs|].
    + rewrite (groups_reordered K s a b KO R C S H). destruct (link_groups _ _ _ _ _ _ _ _) as [r|e']; [|discriminate]. apply X.
    + apply X.
  - revert E. unfold posterior. cbv zeta. rewrite P, L1, L2. destruct (peaks K (map (col a) (seq 0 (cols a)))) as [best|e']; [|auto]. cbn [bind].
    destruct links as [gs|].
    + rewrite (groups_reordered K s a b KO R C S H). destruct (link_groups _ _ _ _ _ _ _ _) as [r|e1]; [intros Q; discriminate Q|auto].
    + intros Q; discriminate Q.
Qed.

(** The derived columns. *)
Lemma abs_reordered f h h2 s : rows (h_flat h2) = rows (h_flat h) -> cols (h_flat h2) = cols (h_flat h) ->
  (forall i j, (i < rows (h_flat h))%nat -> (j < cols (h_flat h))%nat -> at2 (h_flat h2) i j = at2 (h_flat h) (s i) j) ->
  dim2 (h_chain h2) = dim2 (h_chain h) ->
  match abs_sigma f h, abs_sigma f h2 with
  | Ok k, Ok k2 => rows (h_flat k) = rows (h_flat h) /\ cols (h_flat k) = cols (h_flat h) /\ rows (h_flat k2) = rows (h_flat k) /\ cols (h_flat k2) = cols (h_flat k) /\
     (forall i j, (i < rows (h_flat k))%nat -> (j < cols (h_flat k))%nat -> at2 (h_flat k2) i j = at2 (h_flat k) (s i) j)
  | Err e, Err e2 => e2 = e | _, _ => False end.
Proof.
  intros R C H D. unfold abs_sigma. destruct (f_abs f); [|auto]. destruct (Nat.eqb _ 1); [|auto].
  destruct (free_inds _ _ _) as [fi|e]; [|reflexivity]. cbn [bind]. destruct (getn fi _) as [[j|]|e]; [| |reflexivity]; cbn [bind].
  - rewrite D, C. destruct (_ && _)%bool; [|reflexivity]. cbn [h_flat rows cols at2]. repeat split; auto.
    intros i c Hi Hc. now rewrite H by auto.
  - cbn [h_flat rows cols at2]. repeat split; auto. intros i c Hi Hc. now rewrite H by auto.
Qed.
Lemma theta_chain_reordered s a b : cols b = cols a -> (forall i j, (i < rows a)%nat -> (j < cols a)%nat -> at2 b i j = at2 a (s i) j) ->
  forall theta vary n, match theta_chain theta vary a n, theta_chain theta vary b n with
  | Ok t, Ok t2 => Forall2 (fun g g2 : nat -> fl => forall k, (k < rows a)%nat -> g2 k = g (s k)) t t2
  | Err e, Err e2 => e2 = e | _, _ => False end.
Proof.
  intros C H. induction theta as [|x theta IH]; intros vary n; [destruct vary; cbn; constructor|].
  destruct vary as [|[] vary]; cbn [theta_chain]; [reflexivity| |].
  - rewrite C. destruct (Nat.ltb_spec n (cols a)); [|reflexivity]. specialize (IH vary (S n)).
    destruct (theta_chain theta vary a (S n)), (theta_chain theta vary b (S n)); try contradiction; cbn [bind]; auto.
  - specialize (IH vary n).
    destruct (theta_chain theta vary a n), (theta_chain theta vary b n); try contradiction; cbn [bind]; auto.
Qed.
Lemma F2_firstn {A B} (P : A -> B -> Prop) n : forall l l', Forall2 P l l' -> Forall2 P (firstn n l) (firstn n l').
Proof. induction n; intros l l' F; [constructor|]. inversion F; subst; cbn; constructor; auto. Qed.
Lemma F2_skipn {A B} (P : A -> B -> Prop) n : forall l l', Forall2 P l l' -> Forall2 P (skipn n l) (skipn n l').
Proof. induction n; intros l l' F; [exact F|]. inversion F; subst; cbn; auto. Qed.
Lemma F2_map (s : nat -> nat) N k l l' : Forall2 (fun g g2 : nat -> fl => forall k, (k < N)%nat -> g2 k = g (s k)) l l' -> (k < N)%nat ->
  map (fun c : nat -> fl => c k) l' = map (fun c : nat -> fl => c (s k)) l.
Proof. intros F Hk. induction F as [|g g2 l l' P F IH]; [reflexivity|]. cbn. now rewrite IH, P. Qed.

Lemma add_reordered f h h2 s : rows (h_flat h2) = rows (h_flat h) -> cols (h_flat h2) = cols (h_flat h) ->
  (forall i j, (i < rows (h_flat h))%nat -> (j < cols (h_flat h))%nat -> at2 (h_flat h2) i j = at2 (h_flat h) (s i) j) ->
  dim2 (h_chain h2) = dim2 (h_chain h) ->
  match add_v_re_22 f h, add_v_re_22 f h2 with
  | Ok k, Ok k2 => rows (h_flat k) = rows (h_flat h) /\ rows (h_flat k2) = rows (h_flat k) /\ cols (h_flat k2) = cols (h_flat k) /\ h_names k2 = h_names k /\
     (forall i j, (i < rows (h_flat k))%nat -> (j < cols (h_flat k))%nat -> at2 (h_flat k2) i j = at2 (h_flat k) (s i) j)
  | Err e, Err e2 => e2 = e | _, _ => False end.
Proof.
  intros R C H D. pose proof (abs_reordered f h h2 s R C H D) as A. unfold add_v_re_22.
  destruct (abs_sigma f h) as [k|e], (abs_sigma f h2) as [k2|e2]; try contradiction; cbn [bind]; auto.
  destruct A as (R0 & C0 & R1 & C1 & H1). pose proof (theta_chain_reordered s (h_flat k) (h_flat k2) C1 H1 (f_theta f) (f_vary f) 0) as T.
  destruct (f_theta f) as [|x0 th]; [reflexivity|].
  destruct (theta_chain (x0 :: th) (f_vary f) (h_flat k) 0) as [tc|e], (theta_chain (x0 :: th) (f_vary f) (h_flat k2) 0) as [tc2|e2]; try contradiction; cbn [bind]; auto.
  assert (LL : length tc2 = length tc) by (clear - T; induction T; cbn; congruence). rewrite LL.
  destruct (Nat.ltb (length tc) (kp_nv (f_prof f))); [reflexivity|]. cbn [bind].
  destruct (Nat.ltb (length tc) (kp_nv (f_prof f) + kp_nd (f_prof f))); [reflexivity|]. cbn [bind].
  destruct (free_names (f_names f) (f_vary f)) as [ns|e]; [|reflexivity]. cbn [bind h_flat h_names].
  unfold add_col. cbn [rows cols at2]. rewrite R1, C1. split; [exact R0|]. split; [reflexivity|]. split; [reflexivity|]. split; [reflexivity|].
  intros i j Hi Hj. pose proof (F2_map s _ i _ _ (F2_firstn _ (kp_nv (f_prof f)) _ _ T) Hi) as E1.
  pose proof (F2_map s _ i _ _ (F2_firstn _ (kp_nd (f_prof f)) _ _ (F2_skipn _ (kp_nv (f_prof f)) _ _ T)) Hi) as E2.
  rewrite E1, E2.
  repeat match goal with |- context [Nat.ltb ?x ?y] => destruct (Nat.ltb_spec x y) end; auto.
Qed.

Lemma chain_reordered K links f h h2 : order_free K -> reordered (h_flat h) (h_flat h2) -> dim2 (h_chain h2) = dim2 (h_chain h) ->
  match chain_results K links f h, chain_results K links f h2 with
  | Ok (h', p), Ok (h2', p2) => p2 = p /\ reordered (h_flat h') (h_flat h2') /\ h_names h2' = h_names h'
  | Err e, Err e2 => e2 = e
  | _, _ => False
  end.
Proof.
  intros KO (R & C & s & S & H) D. pose proof (add_reordered f h h2 s R C H D) as A. unfold chain_results.
  destruct (add_v_re_22 f h) as [k|e], (add_v_re_22 f h2) as [k2|e2]; try contradiction; cbn [bind]; auto.
  destruct A as (R0 & R1 & C1 & N & H1).
  assert (RO : reordered (h_flat k) (h_flat k2)) by (split; [exact R1|split; [exact C1|exists s; split; [now rewrite R0|exact H1]]]).
  rewrite (posterior_reordered K links (f_vary f) _ _ KO RO).
  destruct (posterior K links (f_vary f) (h_flat k)) as [p|e]; cbn [bind]; auto.
Qed.
