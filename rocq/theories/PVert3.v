(* What the fits for the object row are given; the fit in the trimmed image. *)
From Coq Require Import Reals List Bool Arith ZArith Lra Lia.
From Verif Require Import PyFloat PyBase Arr PyNum MAper2D MMask MTrim STrim PTrim PTrim2 PAper2DOk MVert SVert SVert2 PVert PVert2 PVertEx.
Import ListNotations.
Local Open Scope R_scope.

Lemma flat_rows p (g : nat -> nat -> R) (a : nat -> nat -> fl) : forall n b, (forall i j, (b <= i < b + n)%nat -> (j < p)%nat -> a i j = Fin (g i j)) ->
  let l := flat_map (fun i => map (fun j => a i j) (seq 0 p)) (seq b n) in
  length l = (n * p)%nat /\ forall i j, (i < n)%nat -> (j < p)%nat -> nth_error l (i * p + j) = Some (Fin (g (b + i)%nat j)).
Proof.
  induction n as [|n IH]; intros b H; cbv zeta; cbn [seq flat_map length]; [split; [reflexivity|intros; lia]|].
  destruct (IH (S b)) as [L N]; [intros; apply H; lia|]. cbv zeta in L, N.
  assert (M : length (map (fun j => a b j) (seq 0 p)) = p) by now rewrite map_length, seq_length.
  split; [rewrite app_length, M, L; lia|]. intros [|i] j Hi Hj.
  - cbn [Nat.mul Nat.add]. rewrite nth_error_app1 by (rewrite M; exact Hj). rewrite nth_error_map, (nth_error_nth' _ 0%nat) by (rewrite seq_length; exact Hj).
    rewrite seq_nth by exact Hj. cbn [option_map Nat.add]. rewrite H by lia. now rewrite Nat.add_0_r.
  - rewrite nth_error_app2 by (rewrite M; cbn [Nat.mul]; lia). rewrite M. replace (S i * p + j - p)%nat with (i * p + j)%nat by (cbn [Nat.mul]; lia).
    rewrite N by lia. do 3 f_equal. lia.
Qed.
Lemma flat_image n p g a : image a n p g -> row_major n p g (flat_list2 a).
Proof. intros (R & C & H). unfold flat_list2. rewrite R, C. apply (flat_rows p g (at2 a) n 0). intros i j Hi Hj. apply H; lia. Qed.

Lemma fill_image median a n p g m : image a n p g -> median (flat_list2 a) = Fin m -> image (fill_err median a) n p (with_missing m g).
Proof.
  intros (R & C & H) M. unfold fill_err. rewrite M. split; [exact R|]. split; [exact C|]. intros i j Hi Hj. cbn [at2]. rewrite H by assumption.
  unfold with_missing. cbn [feqb]. destruct (Req_EM_T (g i j) (-99)) as [E|E].
  - rewrite (proj2 (Reqb_true _ _) E). cbn [fmul]. f_equal. lra.
  - now rewrite (proj2 (Reqb_false _ _) E).
Qed.
Lemma sq_pos p (e : nat -> R) : 0 <= rsumn p (fun j => e j * e j).
Proof. induction p as [|k IH]; cbn [rsumn]; [lra|]. pose proof (Rle_0_sqr (e k)). unfold Rsqr in *. lra. Qed.
Lemma row_flux_image a n p f : image a n p f -> row_flux a = map (fun i => Fin (rsumn p (f i))) (seq 0 n).
Proof.
  intros (R & C & H). unfold row_flux. rewrite R, C. apply map_ext_in. intros i Hi. apply in_seq in Hi.
  change (fsumn p (fun j => at2 a i j) = Fin (rsumn p (f i))). apply fsumn_Fin. intros. apply H; lia.
Qed.
Lemma row_err_image a n p e : image a n p e -> row_err a = map (error_given p e) (seq 0 n).
Proof.
  intros (R & C & H). unfold row_err. rewrite R, C. apply map_ext_in. intros i Hi. apply in_seq in Hi.
  change (fsqrt (fsumn p (fun j => fsq (at2 a i j))) = error_given p e i). rewrite (fsumn_Fin p _ (fun j => e i j * e i j)).
  - unfold fsqrt. rewrite (proj2 (Rltb_false _ _)); [reflexivity|]. pose proof (sq_pos p (e i)). lra.
  - intros j Hj. rewrite H by lia. reflexivity.
Qed.
Lemma row_sn_image flux err n p f e : image flux n p f -> image err n p e ->
  row_sn (row_flux flux) (row_err err) = map (fun i => Fin (sn_row p f e i)) (seq 0 n).
Proof.
  intros F E. rewrite (row_flux_image _ _ _ _ F), (row_err_image _ _ _ _ E). unfold row_sn. rewrite combine_map, map_map. apply map_ext_in. intros i _.
  cbn [fst snd]. unfold error_given, sn_row. cbv zeta. set (v := rsumn p (fun j => e i j * e i j)). assert (V : 0 <= v) by apply sq_pos. cbn [fdiv].
  destruct (Req_EM_T v 0) as [Z|Z].
  - rewrite Z, sqrt_0. rewrite (proj2 (Reqb_true _ _) eq_refl). destruct (Reqb (rsumn p (f i)) 0); [reflexivity|]. destruct (Rltb 0 _); reflexivity.
  - assert (0 < sqrt v) by (apply sqrt_lt_R0; lra). rewrite (proj2 (Reqb_false _ _)) by lra. cbn [fabs isfinite].
    f_equal. unfold Rdiv. rewrite Rabs_mult, (Rabs_pos_eq (/ sqrt v)); [reflexivity|]. left. now apply Rinv_0_lt_compat.
Qed.
Lemma argmax_first g : forall n f, (forall i, (i <= n)%nat -> f i = Fin (g i)) ->
  (argmax_ n f <= n)%nat /\ (forall k, (k <= n)%nat -> g k <= g (argmax_ n f)) /\ (forall k, (k < argmax_ n f)%nat -> g k < g (argmax_ n f)).
Proof.
  induction n as [|n IH]; intros f H; cbn [argmax_].
  - split; [lia|]. split; intros k Hk; [|lia]. replace k with 0%nat by lia. lra.
  - destruct (IH f) as (A & B & C); [intros; apply H; lia|]. set (m := argmax_ n f) in *. cbv zeta. rewrite (H m), (H (S n)) by lia. cbn [isnan fltb].
    destruct (Rltb (g m) (g (S n))) eqn:E.
    + apply Rltb_true in E. split; [lia|]. split; intros k Hk.
      * destruct (Nat.eq_dec k (S n)) as [->|]; [lra|]. specialize (B k ltac:(lia)). lra.
      * specialize (B k ltac:(lia)). lra.
    + apply Rltb_false in E. split; [lia|]. split; [|exact C]. intros k Hk. destruct (Nat.eq_dec k (S n)) as [->|]; [lra|]. apply B. lia.
Qed.
Lemma lnth_seq g n i : (i < n)%nat -> lnth (map (fun i => Fin (g i)) (seq 0 n)) i = Fin (g i).
Proof.
  intros H. unfold lnth. rewrite (nth_indep _ _ (Fin (g 0%nat))) by (rewrite map_length, seq_length; exact H).
  rewrite (map_nth (fun i => Fin (g i)) (seq 0 n) 0%nat i). rewrite seq_nth by exact H. reflexivity.
Qed.
Lemma mapi_nth {A B} (f : nat -> A -> B) l i : nth_error (mapi f l) i = option_map (f i) (nth_error l i).
Proof.
  unfold mapi. change (f i) with (f (0 + i)%nat). generalize 0%nat. revert i. induction l as [|x l IH]; intros [|i] b; cbn [mapi_from nth_error option_map]; try reflexivity.
  - now rewrite Nat.add_0_r.
  - rewrite IH. do 2 f_equal. lia.
Qed.
Lemma drop_image n p f e sp : (1 <= n)%nat ->
  drop_edge (map (fun i => Fin (rsumn p (f i))) (seq 0 n)) (map (fun i => Fin (sn_row p f e i)) (seq 0 n)) = Ok sp ->
  length sp = n /\ forall i, (i < n)%nat -> exists x, nth_error sp i = Some x /\ flux_given n p f e i x.
Proof.
  intros N D. pose proof (drop_edge_length _ _ _ D) as L. rewrite map_length, seq_length in L. split; [exact L|].
  unfold drop_edge in D. set (sn := map (fun i => Fin (sn_row p f e i)) (seq 0 n)) in *. assert (LS : length sn = n) by (unfold sn; now rewrite map_length, seq_length).
  destruct (argmax_first (sn_row p f e) (n - 1) (lnth sn)) as (A & B & C). { intros. apply lnth_seq. lia. }
  assert (NE : sn <> []) by (intros Z; rewrite Z in LS; cbn in LS; lia).
  replace (match sn with [] => Err ValueError | _ :: _ => _ end) with
    (@Ok (list fl) (if Nat.eqb (argmax_ (length sn - 1) (lnth sn)) 0 then mapi (fun i x => if Nat.eqb i 0 then Fin 0 else x) (map (fun i => Fin (rsumn p (f i))) (seq 0 n))
      else if Nat.eqb (argmax_ (length sn - 1) (lnth sn)) (length (map (fun i => Fin (rsumn p (f i))) (seq 0 n)) - 1)
        then mapi (fun i x => if Nat.eqb i (length (map (fun i => Fin (rsumn p (f i))) (seq 0 n)) - 1) then Fin 0 else x) (map (fun i => Fin (rsumn p (f i))) (seq 0 n))
        else map (fun i => Fin (rsumn p (f i))) (seq 0 n))) in D by (destruct sn; [congruence|reflexivity]).
  rewrite LS, map_length, seq_length in D. set (k := argmax_ (n - 1) (lnth sn)) in *. clearbody k. clear NE LS. clearbody sn. inversion D; subst sp. clear D. intros i Hi.
  assert (S0 : nth_error (map (fun i => Fin (rsumn p (f i))) (seq 0 n)) i = Some (Fin (rsumn p (f i)))).
  { rewrite nth_error_map, (nth_error_nth' _ 0%nat) by (rewrite seq_length; exact Hi). rewrite seq_nth by exact Hi. reflexivity. }
  assert (ED : best_edge n (sn_row p f e) i <-> i = k /\ (k = 0%nat \/ k = (n - 1)%nat)).
  { split.
    - intros [[-> G]|(-> & P & G)].
      + destruct (Nat.eq_dec k 0) as [->|Z]; [auto|]. specialize (C 0%nat ltac:(lia)). specialize (G k ltac:(lia)). lra.
      + destruct (Nat.eq_dec k (n - 1)) as [->|Z]; [auto|]. specialize (B (n - 1)%nat ltac:(lia)). specialize (G k ltac:(lia)). lra.
    - intros [-> [->|E]].
      + left. split; [reflexivity|]. intros j Hj. apply B. lia.
      + destruct (Nat.eq_dec k 0) as [->|Z]; [left|right].
        * split; [reflexivity|]. intros j Hj. apply B. lia.
        * split; [exact E|]. split; [lia|]. intros j Hj. apply C. lia. }
  destruct (Nat.eqb_spec k 0) as [K|K].
  - rewrite mapi_nth, S0. cbn [option_map]. eexists. split; [reflexivity|]. destruct (Nat.eqb_spec i 0) as [I|I]; split; intros H; try reflexivity.
    + exfalso. apply H, ED. lia.
    + apply ED in H. lia.
  - destruct (Nat.eqb_spec k (n - 1)) as [K'|K'].
    + rewrite mapi_nth, S0. cbn [option_map]. eexists. split; [reflexivity|]. destruct (Nat.eqb_spec i (n - 1)) as [I|I]; split; intros H; try reflexivity.
      * exfalso. apply H, ED. lia.
      * apply ED in H. lia.
    + rewrite S0. eexists. split; [reflexivity|]. split; [intros H; apply ED in H; lia|reflexivity].
Qed.
Lemma holds_all n p f e sp d m vv dm am sg : (forall i, (i < n)%nat -> exists x, nth_error sp i = Some x /\ flux_given n p f e i x) -> length sp = n ->
  holds n p f e 0 n (mkVreq d m vv (Z.of_nat n - 1) dm am sg sp (map (error_given p e) (seq 0 n))).
Proof.
  intros H L. split; [exact L|]. split; [cbn [vq_err]; now rewrite map_length, seq_length|]. split; [reflexivity|]. intros i Hi. split; [exact (H i Hi)|].
  cbn [vq_err]. rewrite nth_error_map, (nth_error_nth' _ 0%nat) by (rewrite seq_length; exact Hi). now rewrite seq_nth by exact Hi.
Qed.
Lemma holds_cut n p f e sp d m vv dm am sg : (forall i, (i < n)%nat -> exists x, nth_error sp i = Some x /\ flux_given n p f e i x) -> length sp = n ->
  holds n p f e 5 (n - 10) (mkVreq d m vv (Z.of_nat (n - 10) - 1) dm am sg (slice sp 5 (-5)) (slice (map (error_given p e) (seq 0 n)) 5 (-5))).
Proof.
  intros H L. assert (LE : length (map (error_given p e) (seq 0 n)) = n) by now rewrite map_length, seq_length.
  split; [cbn [vq_flux]; rewrite slice5_length; lia|]. split; [cbn [vq_err]; rewrite slice5_length; lia|]. split; [reflexivity|]. intros i Hi.
  cbn [vq_flux vq_err]. rewrite !slice5_nth by lia. split; [apply H; lia|].
  rewrite nth_error_map, (nth_error_nth' _ 0%nat) by (rewrite seq_length; lia). now rewrite seq_nth by lia.
Qed.

(** C127: only such requests are made. *)
Lemma vert_requests median flux err n p f e0 : (1 <= n)%nat -> image flux n p f -> image err n p e0 ->
  exists l, row_major n p e0 l /\ forall m, median l = Fin m -> forall lm lm' dither skip pix line wave ypos,
  (forall q, row_request dither ypos n p f (with_missing m e0) q -> lm q = lm' q) ->
  vert_position median lm dither skip pix line flux err wave (option_map Fin ypos) = vert_position median lm' dither skip pix line flux err wave (option_map Fin ypos).
Proof.
  intros N F E. exists (flat_list2 err). split; [now apply flat_image|]. intros m M lm lm' dither skip pix line wave ypos H.
  pose proof (fill_image median err n p e0 m E M) as E'. unfold vert_position. destruct (line_column wave line); [|reflexivity]. cbn [bind]. cbv zeta.
  rewrite (row_sn_image _ _ _ _ _ _ F E'), (row_flux_image _ _ _ _ F), (row_err_image _ _ _ _ E').
  destruct (drop_edge _ _) as [sp|] eqn:D; [|reflexivity]. cbn [bind]. apply drop_image in D; [|exact N]. destruct D as [L D]. rewrite L. clear E E' M.
  set (e := with_missing m e0) in *. clearbody e. set (sn := map (fun i => Fin (sn_row p f e i)) (seq 0 n)).
  assert (HA : forall mu vv dm am sg, match ypos with None => mu = Fin ((INR n - 1) / 2) /\ vv = true | Some y => mu = Fin y end ->
     lm (mkVreq dither mu vv (Z.of_nat n - 1) dm am sg sp (map (error_given p e) (seq 0 n))) = lm' (mkVreq dither mu vv (Z.of_nat n - 1) dm am sg sp (map (error_given p e) (seq 0 n)))).
  { intros mu vv dm am sg Q. apply H. split; [reflexivity|]. destruct ypos; [left; split; [now apply holds_all|exact Q]|]. split; [now apply holds_all|exact Q]. }
  destruct ypos as [y|]; cbn [option_map].
  - rewrite HA by reflexivity. match goal with |- context [bind (lm' ?q) _] => destruct (lm' q) as [a1|]; [|reflexivity] end. cbn [bind]. destruct (read_fit dither pix 0 sn a1) as [v|]; [|reflexivity]. cbn [bind].
    replace (if fgtb (fabs (fsub (Fin y) (Fin (IZR (v_m0 v))))) (Fin 2) && negb skip then _ else Ok v) with
      (if fgtb (fabs (fsub (Fin y) (Fin (IZR (v_m0 v))))) (Fin 2) && negb skip
       then do _ <- int_round (Fin y);
            do a0 <- lm' (mkVreq dither (Fin y) false (Z.of_nat n - 1) (Fin (IZR (Z.of_nat n - 1))) None (Fin 10) sp (map (error_given p e) (seq 0 n)));
            read_fit dither pix 0 sn a0 else Ok v) by (rewrite HA by reflexivity; reflexivity).
    match goal with |- bind ?x _ = bind ?x _ => destruct x as [w|]; [|reflexivity] end. cbn [bind]. destruct (poor_given pix w); [|reflexivity].
    destruct (np_max (slice sp 5 (-5))); [|reflexivity]. cbn [bind]. rewrite slice5_length, L.
    rewrite H; [reflexivity|]. split; [reflexivity|]. right. split; [now apply holds_cut|]. split; reflexivity.
  - rewrite HA; [reflexivity|]. split; [f_equal; lra|reflexivity].
Qed.
(** C127: and one is made. *)
Lemma vert_asks median flux err n p f e0 : (1 <= n)%nat -> image flux n p f -> image err n p e0 ->
  exists l, row_major n p e0 l /\ forall m, median l = Fin m -> forall lm dither skip pix line wave ypos x,
  wavelengths wave -> isfinite line = true ->
  (forall q, row_request dither ypos n p f (with_missing m e0) q -> holds n p f (with_missing m e0) 0 n q -> lm q = Err x) ->
  vert_position median lm dither skip pix line flux err wave (option_map Fin ypos) = Err x.
Proof.
  intros N F E. exists (flat_list2 err). split; [now apply flat_image|]. intros m M lm dither skip pix line wave ypos x W I H.
  pose proof (fill_image median err n p e0 m E M) as E'. unfold vert_position. destruct (line_column_ok wave line W I) as (c & ->). cbn [bind]. cbv zeta.
  rewrite (row_sn_image _ _ _ _ _ _ F E'), (row_flux_image _ _ _ _ F), (row_err_image _ _ _ _ E').
  destruct (drop_edge_ok (map (fun i => Fin (rsumn p (f i))) (seq 0 n)) (map (fun i => Fin (sn_row p f (with_missing m e0) i)) (seq 0 n))) as (sp & D).
  { destruct n; [lia|discriminate]. }
  rewrite D. cbn [bind]. apply drop_image in D; [|exact N]. destruct D as [L D]. rewrite L. rewrite H; [reflexivity| |now apply holds_all].
  split; [reflexivity|]. destruct ypos; cbn [option_map].
  - left. split; [now apply holds_all|reflexivity].
  - split; [now apply holds_all|]. split; [cbn [vq_mu]; f_equal; lra|reflexivity].
Qed.

(** C127: the fit in the trimmed image. *)
Lemma getz_in {A} (l : list A) k : (0 <= k < Z.of_nat (length l))%Z -> exists x, getz l k = Ok x /\ nth_error l (Z.to_nat k) = Some x.
Proof.
  intros H. unfold getz. destruct (Z.ltb_spec k 0); [lia|]. destruct (Z.leb_spec 0 k); [|lia].
  destruct (nth_error l (Z.to_nat k)) as [x|] eqn:E; [|apply nth_error_None in E; lia]. exists x. split; [now apply getn_ok|reflexivity].
Qed.
Lemma round_near r : Rabs (r - IZR (Rround r)) <= 1/2.
Proof.
  assert (H : exists v, read_fit false 1 0 [Fin 0] (mkVans (Fin r) (Fin 0)) = Ok v).
  { unfold read_fit. cbn [va_mu int_round bind length closest]. destruct (getz_closest [Fin 0] (Rround r + 0)) as (x & G & _); [discriminate|]. cbn [length] in G. rewrite G. cbn [bind].
    unfold half_height. rewrite (proj2 (Reqb_false 1 0)) by lra. cbn [int_ceil bind]. eauto. }
  destruct H as (v & H). destruct (read_fit_spec _ _ _ _ _ _ H) as (m & h & A & B & [C D] & _). cbn [va_mu] in A. inversion A; subst m. rewrite B in D.
  replace (r + IZR 0) with r in D by (cbn; lra). now rewrite Z.add_0_r in D.
Qed.
Lemma round_in r n : 0 <= r <= IZR (Z.of_nat n - 1) -> (0 <= Rround r < Z.of_nat n)%Z.
Proof.
  intros [H1 H2]. pose proof (round_near r) as B. apply Rabs_both in B.
  assert (-1 < Rround r)%Z by (apply lt_IZR; lra). assert (Rround r < Z.of_nat n - 1 + 1)%Z by (apply lt_IZR; rewrite plus_IZR; lra). lia.
Qed.
Lemma getz_sn p f e n k : (0 <= k < Z.of_nat n)%Z -> getz (map (fun i => Fin (sn_row p f e i)) (seq 0 n)) k = Ok (Fin (sn_row p f e (Z.to_nat k))).
Proof.
  intros H. destruct (getz_in (map (fun i => Fin (sn_row p f e i)) (seq 0 n)) k) as (x & G & X). { rewrite map_length, seq_length. exact H. }
  rewrite G. apply nth_sn in X. now destruct X as [_ ->].
Qed.
Lemma refit_runs median lm skip line flux err wave y n p f e0 : respects lm -> always lm -> wavelengths wave -> isfinite line = true ->
  (2 <= n)%nat -> image flux n p f -> image err n p e0 -> 0 <= y <= INR n - 1 ->
  exists l, row_major n p e0 l /\ forall m, median l = Fin m ->
  exists v q r d, vert_refit median lm skip line flux err wave (Fin y) = Ok v /\
    holds n p f (with_missing m e0) 0 n q /\ vq_mu q = Fin y /\ vq_vary q = true /\ vq_three q = false /\ lm q = Ok (mkVans (Fin r) d) /\
    v_min v = 0%Z /\ v_max v = Z.of_nat n /\ (0 <= v_m0 v < Z.of_nat n)%Z /\ v_snr v = Fin (sn_row p f (with_missing m e0) (Z.to_nat (v_m0 v))) /\
    ((stands_for v r /\ (skip = true \/ Rabs (y - IZR (v_m0 v)) <= 2)) \/
     (stands_for v y /\ skip = false /\ exists k, Rabs (r - IZR k) <= 1/2 /\ 2 < Rabs (y - IZR k))).
Proof.
  intros Rs Al W I N F E Y. exists (flat_list2 err). split; [now apply flat_image|]. intros m M.
  pose proof (fill_image median err n p e0 m E M) as E'. unfold vert_refit. destruct (line_column_ok wave line W I) as (c & ->). cbn [bind]. cbv zeta.
  rewrite (row_sn_image _ _ _ _ _ _ F E'), (row_flux_image _ _ _ _ F), (row_err_image _ _ _ _ E'). set (e := with_missing m e0) in *. clearbody e.
  destruct (drop_edge_ok (map (fun i => Fin (rsumn p (f i))) (seq 0 n)) (map (fun i => Fin (sn_row p f e i)) (seq 0 n))) as (sp & D).
  { destruct n; [lia|discriminate]. }
  rewrite D. cbn [bind]. apply drop_image in D; [|lia]. destruct D as [L D]. rewrite L.
  set (q := mkVreq false (Fin y) true (Z.of_nat n - 1) (Fin 0) None (Fin 5) sp (map (error_given p e) (seq 0 n))).
  destruct (Al q) as ([mu d] & Q). { split; [intros _; cbn; lia|discriminate]. }
  destruct (proj1 (Rs q _ Q) eq_refl) as (r & Hr & B). cbn [va_mu] in Hr. subst mu. cbn [q vq_mumax] in B. pose proof (round_in r n B) as RI.
  assert (YI : (0 <= Rround y < Z.of_nat n)%Z). { apply round_in. rewrite minus_IZR, <- INR_IZR_INZ. lra. }
  rewrite Q. cbn [bind va_mu int_round]. rewrite (getz_sn p f e n (Rround r) RI). cbn [bind].
  assert (G : fgtb (fabs (fsub (Fin y) (Fin (IZR (Rround r))))) (Fin 2) = Rltb 2 (Rabs (y - IZR (Rround r)))) by reflexivity.
  rewrite G. clear G. destruct (Rltb 2 (Rabs (y - IZR (Rround r))) && negb skip) eqn:T.
  - apply andb_true_iff in T. destruct T as [T S]. apply Rltb_true in T. rewrite (getz_sn p f e n (Rround y) YI). cbn [bind].
    eexists _, q, r, d. split; [reflexivity|]. split; [now apply holds_all|]. do 3 (split; [reflexivity|]). split; [exact Q|].
    cbn [v_min v_max v_m0 v_snr]. split; [reflexivity|]. split; [reflexivity|]. split; [exact YI|]. split; [reflexivity|]. right.
    split; [split; [reflexivity|apply round_near]|]. split; [now destruct skip|]. exists (Rround r). split; [apply round_near|exact T].
  - eexists _, q, r, d. split; [reflexivity|]. split; [now apply holds_all|]. do 3 (split; [reflexivity|]). split; [exact Q|].
    cbn [v_min v_max v_m0 v_snr]. split; [reflexivity|]. split; [reflexivity|]. split; [exact RI|]. split; [reflexivity|]. left.
    split; [split; [reflexivity|apply round_near]|]. apply andb_false_iff in T. destruct T as [T|T]; [right; now apply Rltb_false|left; now destruct skip].
Qed.

(** Cases. *)
Lemma vert_ex : image (ex_flux 20 0) 20 3 (fun i _ => if Nat.eqb i 0 then 1 else 0) /\
  image (fin2 20 3 (fun i j => if Nat.eqb i 3 then -99 else 1)) 20 3 (fun i j => if Nat.eqb i 3 then -99 else 1) /\
  (exists q, row_request true (Some 7) 20 3 (fun i _ => if Nat.eqb i 0 then 1 else 0) (with_missing 1 (fun i j => if Nat.eqb i 3 then -99 else 1)) q /\
     nth_error (vq_flux q) 0 = Some (Fin 0) /\ nth_error (vq_err q) 3 = Some (Fin (sqrt 27))).
Proof.
  split; [split; [reflexivity|split; reflexivity]|]. split; [split; [reflexivity|split; reflexivity]|].
  set (e := with_missing 1 _).
  assert (FG : forall i, (i < 20)%nat -> flux_given 20 3 (fun i _ => if Nat.eqb i 0 then 1 else 0) e i (Fin 0)).
  { intros i Hi. split; [reflexivity|]. intros NB. destruct i as [|i]; [|cbn; f_equal; lra]. exfalso. apply NB. left. split; [reflexivity|]. intros k _.
    destruct k as [|k]; [lra|]. unfold sn_row. cbv zeta.
    replace (rsumn 3 (fun _ : nat => if Nat.eqb (S k) 0 then 1 else 0)) with 0 by (cbn; lra). rewrite Rabs_R0.
    assert (P : 0 <= Rabs (rsumn 3 (fun _ => if Nat.eqb 0 0 then 1 else 0)) / sqrt (rsumn 3 (fun j => e 0%nat j * e 0%nat j))).
    { apply Rle_mult_inv_pos; [apply Rabs_pos|]. apply sqrt_lt_R0. unfold e, with_missing. cbn. destruct (Req_EM_T 1 (-99)); lra. }
    repeat (destruct (Req_EM_T _ _)); try lra; unfold Rdiv; rewrite ?Rmult_0_l; lra || exact P. }
  exists (mkVreq true (Fin 7) true 19 (Fin 19) None (Fin 10) (repeat (Fin 0) 20) (map (error_given 3 e) (seq 0 20))). split; [|split; [reflexivity|]].
  - split; [reflexivity|]. left. split; [|reflexivity]. apply (holds_all 20 3 _ e (repeat (Fin 0) 20) true (Fin 7) true (Fin 19) None (Fin 10)); [|reflexivity].
    intros i Hi. exists (Fin 0). split; [|now apply FG]. rewrite (nth_error_nth' _ (Fin 0)) by (rewrite repeat_length; exact Hi). now rewrite nth_repeat.
  - cbn [vq_err map seq nth_error]. unfold error_given. do 3 f_equal. unfold e, with_missing. cbn. destruct (Req_EM_T (-99) (-99)); lra.
Qed.
Lemma refit_ex : respects stay /\ always stay /\ wavelengths ex_wave /\ image (ex_flux 20 12) 20 3 (fun i _ => if Nat.eqb i 12 then 1 else 0) /\ image (ones 20 3) 20 3 (fun _ _ => 1) /\
  exists v, vert_refit (fun _ => Fin 1) stay false (Fin 6563) (ex_flux 20 12) (ones 20 3) ex_wave (Fin (25/2)) = Ok v /\ v_min v = 0%Z /\ v_max v = 20%Z.
Proof.
  destruct stay_hypotheses as (A & B & C & D & E & _). do 5 (split; [assumption|]).
  destruct (refit_runs (fun _ => Fin 1) stay false (Fin 6563) (ex_flux 20 12) (ones 20 3) ex_wave (25/2) 20 3 _ _ A B C eq_refl ltac:(lia) D E) as (l & _ & H).
  { cbn. lra. }
  destruct (H 1 eq_refl) as (v & q & r & d & V & _ & _ & _ & _ & _ & V1 & V2 & _). exists v. split; [exact V|]. split; [exact V1|exact V2].
Qed.
