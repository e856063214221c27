(* Proofs about trimming. *)
From Coq Require Import Reals List Bool Arith ZArith Lra Lia Sorted.
From Verif Require Import PyFloat PyBase Arr PyNum PAper2D MMask SMask PMask PMask2 MTrim STrim.
Import ListNotations.
Local Open Scope R_scope.

Lemma ascending_ext l1 : forall l2, ascending l1 -> ascending l2 -> (forall x, In x l1 <-> In x l2) -> l1 = l2.
Proof.
  induction l1 as [|a l1 IH]; intros [|b l2] H1 H2 H.
  - reflexivity.
  - exfalso. destruct (H b) as [_ X]. apply X. now left.
  - exfalso. destruct (H a) as [X _]. apply X. now left.
  - assert (a = b).
    { assert (In a (b :: l2)) by (apply H; now left). assert (In b (a :: l1)) by (apply H; now left).
      pose proof (ascending_head _ _ _ H2 H0). pose proof (ascending_head _ _ _ H1 H3). lia. }
    subst b. f_equal. apply IH.
    + now inversion H1.
    + now inversion H2.
    + intros x. inversion_clear H1 as [|? ? _ F1]. inversion_clear H2 as [|? ? _ F2].
      rewrite Forall_forall in F1, F2. specialize (H x). simpl in H. split; intros Hx.
      * destruct H as [H _]. destruct H as [H|H]; [now right| |exact H]. apply F1 in Hx. lia.
      * destruct H as [_ H]. destruct H as [H|H]; [now right| |exact H]. apply F2 in Hx. lia.
Qed.

Lemma within_inside r w : within r w = true <-> inside r w.
Proof. unfold within, inside, fgeb. now rewrite andb_true_iff. Qed.

Lemma kept_where r wave : kept r wave (where_ (within r) wave).
Proof.
  split; [apply where_sorted|]. intros j. rewrite where_In. split; intros (w & H & I); exists w; split; auto; now apply within_inside.
Qed.
Lemma kept_unique r wave ks : kept r wave ks -> where_ (within r) wave = ks.
Proof.
  intros [H1 H2]. destruct (kept_where r wave) as [H3 H4]. apply ascending_ext; auto.
  intros x. now rewrite H2, H4.
Qed.

Lemma take_map {A} (d : A) l wh : (forall k, In k wh -> (k < length l)%nat) -> take l wh = Ok (map (fun k => nth k l d) wh).
Proof.
  induction wh as [|k wh IH]; intros H; [reflexivity|]. cbn [take map]. unfold getn.
  rewrite (nth_error_nth' l d) by (apply H; now left). cbn [bind]. rewrite IH by (intros; apply H; now right). reflexivity.
Qed.

Lemma kept_bound r wave ks k : kept r wave ks -> In k ks -> (k < length wave)%nat.
Proof. intros [_ H] Hk. apply H in Hk. destruct Hk as (w & E & _). apply nth_error_Some. congruence. Qed.

Lemma kept_seq r wave : (forall w, In w wave -> inside r w) -> kept r wave (seq 0 (length wave)).
Proof.
  intros H. split; [apply ascending_seq|]. intros j. rewrite in_seq. split.
  - intros [_ Hj]. cbn in Hj. exists (nth j wave NaN). split; [now apply nth_error_nth'|]. apply H, nth_In, Hj.
  - intros (w & E & _). split; [lia|]. apply nth_error_Some. congruence.
Qed.

Lemma picked_inside r wave ks : kept r wave ks -> forall w, In w (map (fun k => nth k wave NaN) ks) -> inside r w.
Proof.
  intros [_ H] w Hw. apply in_map_iff in Hw. destruct Hw as (k & <- & Hk). apply H in Hk. destruct Hk as (w & E & I).
  now rewrite (nth_error_nth _ _ _ E).
Qed.

Lemma map_nth_seq (l : list fl) : map (fun k => nth k l NaN) (seq 0 (length l)) = l.
Proof.
  apply nth_ext with (d := NaN) (d' := NaN); [now rewrite map_length, seq_length|].
  intros n Hn. rewrite map_length, seq_length in Hn. rewrite nth_map_seq with (f := fun k => nth k l NaN); auto.
Qed.

Lemma take_cols_ok a ks : (forall k, In k ks -> (k < cols a)%nat) ->
  take_cols a ks = Ok (mk2 (rows a) (length ks) (fun i j => at2 a i (nth j ks 0%nat))).
Proof.
  intros H. unfold take_cols. replace (forallb _ _) with true; [reflexivity|].
  symmetry. apply forallb_forall. intros k Hk. apply Nat.ltb_lt. auto.
Qed.
Lemma picked2_mk ks a : picked2 ks a (mk2 (rows a) (length ks) (fun i j => at2 a i (nth j ks 0%nat))).
Proof. split; [reflexivity|]. split; [reflexivity|]. intros i j k E. cbn [at2]. now rewrite (nth_error_nth _ _ _ E). Qed.
Lemma take_cols_spec a ks a' : take_cols a ks = Ok a' -> picked2 ks a a'.
Proof. unfold take_cols. destruct (forallb _ _); [|discriminate]. intros E. injection E as <-. apply picked2_mk. Qed.

(* ---------------- 1-D ---------------- *)

Lemma trim_1D_head (s : option sp1) z v rest obs o file : zok z rest obs v -> asked v rest obs o ->
  trim_1D s z rest obs file =
    match s with
    | None => Ok None
    | Some s =>
      do ow <- need AttributeError (s_obs s);
      let wh := where_ (within o) ow in
      match wh with
      | [] => Ok (Some (mkSp1 None (s_obs s) (s_rest s) None None None (s_profile s) (Some o) rest))
      | _ => do w <- take_o (s_wave s) wh;
             do f <- take_o (s_flux s) wh;
             do e <- take_o (s_err s) wh;
             do m <- take_o (s_mask s) wh;
             do zv <- z_value z;
             Ok (Some (mkSp1 (Some w) (Some w) (Some (rest_of zv w)) (Some f) (Some e) (Some m)
                             (s_profile s) (Some o) rest))
      end
    end.
Proof. intros Hz Ha. destruct Hz as [->|[-> Hz]]; destruct Ha; try congruence; reflexivity. Qed.
Lemma z_value_ok z rest obs v : zok z rest obs v -> z_value z = Ok v.
Proof. now intros [->|[-> _]]. Qed.

Lemma take_o_ok l ks : (forall k, In k ks -> (k < length l)%nat) -> take_o (Some l) ks = Ok (map (fun k => nth k l NaN) ks).
Proof. intros H. unfold take_o. cbn [need bind]. now apply take_map. Qed.

Lemma trim_1D_ok s wave flux err mask z v rest obs o file ks : arrays1 s wave flux err mask ->
  zok z rest obs v -> asked v rest obs o -> kept o wave ks -> ks <> [] ->
  exists s' wave' flux' err' mask', trim_1D (Some s) z rest obs file = Ok (Some s') /\
    arrays1 s' wave' flux' err' mask' /\ picked1 ks wave wave' /\ picked1 ks flux flux' /\
    picked1 ks err err' /\ picked1 ks mask mask' /\
    s_rest s' = Some (map (fun x => fdiv x (fadd (Fin 1) v)) wave') /\
    s_trimo s' = Some o /\ s_trimr s' = rest /\ s_profile s' = s_profile s.
Proof.
  intros (W & O & F & E & M & L1 & L2 & L3) Hz Ha K N.
  assert (B := fun k => kept_bound _ _ _ k K).
  rewrite (trim_1D_head _ _ v _ _ o) by auto. rewrite W, O, F, E, M. cbn [need bind].
  rewrite (kept_unique _ _ _ K). cbv zeta. rewrite !take_o_ok by (intros k Hk; apply B in Hk; lia).
  cbn [bind]. rewrite (z_value_ok _ _ _ _ Hz). cbn [bind].
  destruct ks as [|k0 ks]; [congruence|]. set (p := fun l : list fl => map (fun k => nth k l NaN) (k0 :: ks)).
  eexists. exists (p wave), (p flux), (p err), (p mask). split; [reflexivity|].
  unfold arrays1, picked1. cbn [s_wave s_obs s_rest s_flux s_err s_mask s_trimo s_trimr s_profile].
  unfold p. rewrite !map_length. repeat split; reflexivity.
Qed.

Lemma trim_1D_empty s wave flux err mask z v rest obs o file : arrays1 s wave flux err mask ->
  zok z rest obs v -> asked v rest obs o -> kept o wave [] ->
  exists s', trim_1D (Some s) z rest obs file = Ok (Some s') /\
    s_wave s' = None /\ s_flux s' = None /\ s_err s' = None /\ s_mask s' = None.
Proof.
  intros (W & O & F & E & M & L1 & L2 & L3) Hz Ha K.
  rewrite (trim_1D_head _ _ v _ _ o) by auto. rewrite O. cbn [need bind]. rewrite (kept_unique _ _ _ K). cbv zeta.
  eexists. split; [reflexivity|]. repeat split; reflexivity.
Qed.

Lemma trim_1D_twice s wave flux err mask z v rest obs o file s' : arrays1 s wave flux err mask ->
  zok z rest obs v -> asked v rest obs o ->
  trim_1D (Some s) z rest obs file = Ok (Some s') -> trim_1D (Some s') z rest obs file = Ok (Some s').
Proof.
  intros A Hz Ha T. pose proof (kept_where o wave) as K. set (ks := where_ (within o) wave) in *.
  destruct ks as [|k0 kt] eqn:Ek.
  - destruct A as (W & O & _).
    rewrite (trim_1D_head _ _ v _ _ o) in T by auto. rewrite O in T. cbn [need bind] in T. rewrite (kept_unique _ _ _ K) in T. cbv zeta in T.
    injection T as <-.
    rewrite (trim_1D_head _ _ v _ _ o) by auto. cbn [s_obs need bind]. rewrite (kept_unique _ _ _ K). reflexivity.
  - destruct (trim_1D_ok s wave flux err mask z v rest obs o file _ A Hz Ha K) as (s1 & w1 & f1 & e1 & m1 & T1 & A1 & P & _ & _ & _ & R & To & Tr & Pf); [discriminate|].
    rewrite T in T1. injection T1 as <-.
    assert (K1 : kept o w1 (seq 0 (length w1))).
    { apply kept_seq. unfold picked1 in P. rewrite P. now apply picked_inside. }
    destruct (trim_1D_ok s' w1 f1 e1 m1 z v rest obs o file _ A1 Hz Ha K1) as (s2 & w2 & f2 & e2 & m2 & T2 & A2 & P2 & F2 & E2 & M2 & R2 & To2 & Tr2 & Pf2).
    { unfold picked1 in P. rewrite P, map_length. discriminate. }
    rewrite T2. f_equal. f_equal. destruct A1 as (W1 & O1 & F1 & E1 & M1 & L1 & L2 & L3), A2 as (W2' & O2 & F2' & E2' & M2' & _).
    unfold picked1 in *. rewrite map_nth_seq in P2. rewrite <- L1, map_nth_seq in F2. rewrite <- L2, map_nth_seq in E2. rewrite <- L3, map_nth_seq in M2.
    subst w2 f2 e2 m2. destruct s2 as [a1 a2 a3 a4 a5 a6 a7 a8 a9], s' as [b1 b2 b3 b4 b5 b6 b7 b8 b9].
    cbn [s_wave s_obs s_rest s_flux s_err s_mask s_trimo s_trimr s_profile] in *. subst. f_equal.
Qed.

Lemma trim_1D_py s r rest file : rest <> None \/ is_ok file = true ->
  trim_1D s (ZPy r) rest None file = Err AttributeError.
Proof.
  intros H. unfold trim_1D. destruct rest as [x|]; cbn [bind]; [reflexivity|].
  destruct file; cbn [bind]; [reflexivity|]. destruct H as [H|H]; [now elim H|discriminate].
Qed.

(* ---------------- 2-D ---------------- *)

Lemma trim_range_asked z rest obs o named file : asked z rest obs o ->
  exists r, trim_range_2D z rest obs named file = Ok (r, o).
Proof. intros []; cbn; eexists; reflexivity. Qed.

Lemma take_cols_o_ok a ks n : cols a = n -> (forall k, In k ks -> (k < n)%nat) ->
  take_cols_o (Some a) ks = Ok (mk2 (rows a) (length ks) (fun i j => at2 a i (nth j ks 0%nat))).
Proof. intros H1 H2. unfold take_cols_o. cbn [need bind]. apply take_cols_ok. now rewrite H1. Qed.

Definition trim_cols (ks : list nat) (a : arr2 fl) : arr2 fl :=
  mk2 (rows a) (length ks) (fun i j => at2 a i (nth j ks 0%nat)).
Definition picked_o (ks : list nat) (o o' : option (arr2 fl)) : Prop :=
  match o, o' with Some a, Some a' => picked2 ks a a' | _, _ => False end.

(** One step of the state monad at a time, so that no nested update is unfolded. *)
Lemma bind_mod {S B} (f : S -> S) (k : unit -> ST S B) s : bindS (modS f) k s = k tt (f s).
Proof. reflexivity. Qed.
Lemma bind_get {S B} (k : S -> ST S B) s : bindS getS k s = k s s.
Proof. reflexivity. Qed.
Lemma bind_lift {S A B} (r : res A) (a : A) (k : A -> ST S B) s : r = Ok a -> bindS (liftR r) k s = k a s.
Proof. now intros ->. Qed.
Lemma bind_ret {S A B} (a : A) (k : A -> ST S B) s : bindS (ret a) k s = k a s.
Proof. reflexivity. Qed.
Lemma bind_ok {S A B} (m : ST S A) (k : A -> ST S B) s s' a : m s = (s', Ok a) -> bindS m k s = k a s'.
Proof. intros H. unfold bindS. now rewrite H. Qed.
Lemma bind_err {S A B} (m : ST S A) (k : A -> ST S B) s s' e : m s = (s', Err e) -> bindS m k s = (s', Err e).
Proof. intros H. unfold bindS. now rewrite H. Qed.
Lemma bind_inv {S A B} (m : ST S A) (k : A -> ST S B) s s' b : bindS m k s = (s', Ok b) ->
  exists s1 a, m s = (s1, Ok a) /\ k a s1 = (s', Ok b).
Proof. unfold bindS. destruct (m s) as [s1 [a|e]]; [|discriminate]. eauto. Qed.
Lemma lift_inv {S A} (r : res A) (s s' : S) a : liftR r s = (s', Ok a) -> s' = s /\ r = Ok a.
Proof. unfold liftR. intros E. injection E as <- ->. auto. Qed.
Ltac stp := first [rewrite bind_mod | rewrite bind_get | rewrite bind_ret
                  | erewrite bind_lift by (first [eassumption | reflexivity])].

(** What happens to incl and cont. *)
Definition trim_pair (ks : list nat) (s : sp2) : option (arr2 fl) * option (arr2 fl) :=
  match take_cols_o (q_incl s) ks, take_cols_o (q_cont s) ks with
  | Ok a, Ok b => (Some a, Some b)
  | _, _ => (None, None)
  end.

Lemma trim_2D_run z rest obs o named file s wave flux err mask weight ks r :
  arrays2 s wave flux err mask weight -> trim_range_2D z rest obs named file = Ok (r, o) -> kept o wave ks -> ks <> [] ->
  let w := map (fun k => nth k wave NaN) ks in
  trim_2D_inplace z rest obs named file s =
   (set_q_rest (Some (rest_of z w)) (set_q_obs (Some w) (set_q_cont (snd (trim_pair ks s)) (set_q_incl (fst (trim_pair ks s))
     (set_q_weight (Some (trim_cols ks weight)) (set_q_mask (Some (trim_cols ks mask)) (set_q_err (Some (trim_cols ks err))
      (set_q_flux (Some (trim_cols ks flux)) (set_q_wave (Some w) (set_q_trimr (Some r) (set_q_trimo (Some o) s)))))))))), Ok tt).
Proof.
  intros (W & O & F & E & M & G & S1 & S2 & S3 & S4) T K N w. subst w.
  assert (B := fun k => kept_bound _ _ _ k K).
  destruct S1 as [_ S1], S2 as [_ S2], S3 as [_ S3], S4 as [_ S4].
  unfold trim_2D_inplace. rewrite (bind_lift _ _ _ _ T). cbv beta. cbn [fst snd].
  rewrite bind_mod, bind_mod, bind_get.
  change (q_obs (set_q_trimr (Some r) (set_q_trimo (Some o) s))) with (q_obs s).
  change (q_wave (set_q_trimr (Some r) (set_q_trimo (Some o) s))) with (q_wave s).
  change (q_flux (set_q_trimr (Some r) (set_q_trimo (Some o) s))) with (q_flux s).
  change (q_err (set_q_trimr (Some r) (set_q_trimo (Some o) s))) with (q_err s).
  change (q_mask (set_q_trimr (Some r) (set_q_trimo (Some o) s))) with (q_mask s).
  change (q_weight (set_q_trimr (Some r) (set_q_trimo (Some o) s))) with (q_weight s).
  change (q_incl (set_q_trimr (Some r) (set_q_trimo (Some o) s))) with (q_incl s).
  change (q_cont (set_q_trimr (Some r) (set_q_trimo (Some o) s))) with (q_cont s).
  rewrite O, W, F, E, M, G. rewrite (bind_lift _ wave) by reflexivity. cbv beta zeta.
  rewrite (kept_unique _ _ _ K). clear O W F E M G.
  destruct ks as [|k0 kt] eqn:Ek; [congruence|]. rewrite <- Ek in *. clear Ek.
  rewrite (bind_lift _ (map (fun k => nth k wave NaN) ks)) by (now apply take_o_ok). cbv beta. rewrite bind_mod.
  rewrite (bind_lift _ (trim_cols ks flux)) by (eapply take_cols_o_ok; eassumption). cbv beta. rewrite bind_mod.
  rewrite (bind_lift _ (trim_cols ks err)) by (eapply take_cols_o_ok; eassumption). cbv beta. rewrite bind_mod.
  rewrite (bind_lift _ (trim_cols ks mask)) by (eapply take_cols_o_ok; eassumption). cbv beta. rewrite bind_mod.
  rewrite (bind_lift _ (trim_cols ks weight)) by (eapply take_cols_o_ok; eassumption). cbv beta. rewrite bind_mod.
  set (st := set_q_weight _ _). unfold trim_pair.
  destruct (take_cols_o (q_incl s) ks) as [a|]; [destruct (take_cols_o (q_cont s) ks) as [b|]|]; reflexivity.
Qed.

Lemma trim_pair_picked ks s a b : q_incl s = Some a -> q_cont s = Some b ->
  (forall k, In k ks -> (k < cols a)%nat) -> (forall k, In k ks -> (k < cols b)%nat) ->
  trim_pair ks s = (Some (trim_cols ks a), Some (trim_cols ks b)).
Proof. intros Ha Hb Ba Bb. unfold trim_pair, take_cols_o. rewrite Ha, Hb. cbn [need bind]. rewrite !take_cols_ok by auto. reflexivity. Qed.

Lemma trim_2D_ok z rest obs o named file s wave flux err mask weight ks :
  arrays2 s wave flux err mask weight -> asked z rest obs o -> kept o wave ks -> ks <> [] ->
  exists s' wave' flux' err' mask' weight',
    trim_2D_inplace z rest obs named file s = (s', Ok tt) /\
    arrays2 s' wave' flux' err' mask' weight' /\
    picked1 ks wave wave' /\ picked2 ks flux flux' /\ picked2 ks err err' /\ picked2 ks mask mask' /\ picked2 ks weight weight' /\
    q_rest s' = Some (map (fun x => fdiv x (fadd (Fin 1) z)) wave') /\
    (forall a b, q_incl s = Some a -> q_cont s = Some b -> cols a = length wave -> cols b = length wave ->
       exists a' b', q_incl s' = Some a' /\ q_cont s' = Some b' /\ picked2 ks a a' /\ picked2 ks b b').
Proof.
  intros A Ha K N. destruct (trim_range_asked z rest obs o named file Ha) as [r T].
  rewrite (trim_2D_run z rest obs o named file s wave flux err mask weight ks r A T K N). cbv zeta.
  set (p := trim_cols ks). eexists. exists (map (fun k => nth k wave NaN) ks), (p flux), (p err), (p mask), (p weight).
  split; [reflexivity|].
  destruct A as (W & O & F & E & M & G & [S1r S1c] & [S2r S2c] & [S3r S3c] & [S4r S4c]).
  assert (B := fun k => kept_bound _ _ _ k K).
  split; [|split; [reflexivity|]; split; [apply picked2_mk|]; split; [apply picked2_mk|]; split; [apply picked2_mk|]; split; [apply picked2_mk|]; split; [reflexivity|]].
  - unfold arrays2, shape. repeat (split; [reflexivity|]). unfold p, trim_cols. cbn [rows cols]. rewrite map_length. repeat split; auto.
  - intros a b Ea Eb Ca Cb. rewrite (trim_pair_picked ks s a b Ea Eb) by (rewrite ?Ca, ?Cb; exact B).
    exists (p a), (p b). split; [reflexivity|]. split; [reflexivity|]. split; apply picked2_mk.
Qed.

Lemma trim_2D_empty z rest obs o named file s wave flux err mask weight :
  arrays2 s wave flux err mask weight -> asked z rest obs o -> kept o wave [] ->
  exists s', trim_2D_inplace z rest obs named file s = (s', Ok tt) /\
    q_wave s' = None /\ q_flux s' = None /\ q_err s' = None /\ q_mask s' = None /\ q_weight s' = None.
Proof.
  intros (W & O & _) Ha K. destruct (trim_range_asked z rest obs o named file Ha) as [r T].
  unfold trim_2D_inplace. rewrite (bind_lift _ _ _ _ T). cbv beta. cbn [fst snd]. rewrite bind_mod, bind_mod, bind_get.
  change (q_obs (set_q_trimr (Some r) (set_q_trimo (Some o) s))) with (q_obs s).
  rewrite O. rewrite (bind_lift _ wave) by reflexivity. cbv beta zeta. rewrite (kept_unique _ _ _ K).
  rewrite !bind_mod. eexists. split; [reflexivity|]. repeat split; reflexivity.
Qed.

Lemma eq2_trim_seq a n : cols a = n -> eq2 a (trim_cols (seq 0 n) a).
Proof.
  intros <-. unfold eq2, trim_cols. cbn [rows cols at2]. rewrite seq_length. split; [reflexivity|]. split; [reflexivity|].
  intros i j _ Hj. now rewrite seq_nth.
Qed.
Lemma same_image_refl o : same_image o o.
Proof. destruct o; cbn; auto. unfold eq2. auto. Qed.

Lemma trim_2D_twice z rest obs o named file s wave flux err mask weight s' :
  arrays2 s wave flux err mask weight -> asked z rest obs o ->
  (forall a, q_incl s = Some a -> cols a = length wave) -> (forall a, q_cont s = Some a -> cols a = length wave) ->
  trim_2D_inplace z rest obs named file s = (s', Ok tt) ->
  exists s'', trim_2D_inplace z rest obs named file s' = (s'', Ok tt) /\ same_spectrum s' s''.
Proof.
  intros A Ha Ci Cc T. pose proof (kept_where o wave) as K. destruct (trim_range_asked z rest obs o named file Ha) as [r Tr].
  set (ks := where_ (within o) wave) in *. destruct ks as [|k0 kt] eqn:Ek.
  - destruct A as (W & O & _). unfold trim_2D_inplace in T. rewrite (bind_lift _ _ _ _ Tr) in T. cbv beta in T. cbn [fst snd] in T. rewrite bind_mod, bind_mod, bind_get in T.
    change (q_obs (set_q_trimr (Some r) (set_q_trimo (Some o) s))) with (q_obs s) in T. rewrite O in T.
    rewrite (bind_lift _ wave) in T by reflexivity. cbv beta zeta in T. rewrite (kept_unique _ _ _ K) in T. rewrite !bind_mod in T.
    unfold modS in T. apply (f_equal fst) in T. cbn [fst] in T.
    unfold trim_2D_inplace. rewrite (bind_lift _ _ _ _ Tr). cbv beta. cbn [fst snd]. rewrite bind_mod, bind_mod, bind_get.
    rewrite (bind_lift _ wave) by (rewrite <- T; exact (f_equal (need AttributeError) O)). cbv beta zeta. rewrite (kept_unique _ _ _ K). rewrite !bind_mod.
    eexists. split; [reflexivity|]. rewrite <- T. unfold same_spectrum.
    repeat (split; [first [reflexivity | exact I | apply same_image_refl]|]). reflexivity.
  - assert (N : ks <> []) by (unfold ks in *; rewrite Ek; discriminate). rewrite <- Ek in K.
    rewrite (trim_2D_run z rest obs o named file s wave flux err mask weight _ r A Tr K N) in T. cbv zeta in T.
    apply (f_equal fst) in T. cbn [fst] in T. fold ks in T, K.
    assert (B := fun k => kept_bound _ _ _ k K).
    set (w1 := map (fun k => nth k wave NaN) ks) in *.
    assert (L1 : length w1 = length ks) by apply map_length.
    destruct A as (W & O & F & E & M & G & [S1r S1c] & [S2r S2c] & [S3r S3c] & [S4r S4c]).
    assert (A1 : arrays2 s' w1 (trim_cols ks flux) (trim_cols ks err) (trim_cols ks mask) (trim_cols ks weight)).
    { rewrite <- T. unfold arrays2, shape. repeat (split; [reflexivity|]). unfold trim_cols. cbn [rows cols]. rewrite L1. repeat split; auto. }
    assert (K1 : kept o w1 (seq 0 (length w1))).
    { apply kept_seq. now apply picked_inside. }
    assert (N1 : seq 0 (length w1) <> []).
    { rewrite L1. destruct ks; [congruence|discriminate]. }
    rewrite (trim_2D_run z rest obs o named file s' w1 _ _ _ _ _ r A1 Tr K1 N1). cbv zeta.
    eexists. split; [reflexivity|].
    rewrite map_nth_seq. unfold same_spectrum.
    assert (Ps : q_incl s' = fst (trim_pair ks s) /\ q_cont s' = snd (trim_pair ks s)) by (rewrite <- T; split; reflexivity).
    assert (Tp : same_image (q_incl s') (fst (trim_pair (seq 0 (length w1)) s')) /\ same_image (q_cont s') (snd (trim_pair (seq 0 (length w1)) s'))).
    { destruct Ps as [Pi Pc].
      destruct (take_cols_o (q_incl s) ks) as [a1|] eqn:E1; [destruct (take_cols_o (q_cont s) ks) as [b1|] eqn:E2|].
      - assert (HI : q_incl s' = Some a1) by (rewrite Pi; unfold trim_pair; now rewrite E1, E2).
        assert (HC : q_cont s' = Some b1) by (rewrite Pc; unfold trim_pair; now rewrite E1, E2).
        assert (C1 : cols a1 = length w1 /\ cols b1 = length w1).
        { unfold take_cols_o in E1, E2. destruct (q_incl s) as [a|]; [|discriminate]. destruct (q_cont s) as [b|]; [|discriminate].
          cbn [need bind] in E1, E2. apply take_cols_spec in E1, E2. destruct E1 as (_ & E1 & _), E2 as (_ & E2 & _). now rewrite L1. }
        destruct C1 as [C1 C2].
        rewrite (trim_pair_picked (seq 0 (length w1)) s' a1 b1) by (auto; intros k Hk; apply in_seq in Hk; lia).
        rewrite HI, HC. cbn [fst snd same_image]. split; now apply eq2_trim_seq.
      - assert (HI : q_incl s' = None) by (rewrite Pi; unfold trim_pair; now rewrite E1, E2).
        assert (HC : q_cont s' = None) by (rewrite Pc; unfold trim_pair; now rewrite E1, E2).
        unfold trim_pair. rewrite HI, HC. cbn. auto.
      - assert (HI : q_incl s' = None) by (rewrite Pi; unfold trim_pair; now rewrite E1).
        assert (HC : q_cont s' = None) by (rewrite Pc; unfold trim_pair; now rewrite E1).
        unfold trim_pair. rewrite HI, HC. cbn. auto. }
    destruct A1 as (W1 & O1 & F1 & E1 & M1 & G1 & S1 & S2 & S3 & S4).
    assert (R1 : q_rest s' = Some (rest_of z w1)) by (rewrite <- T; reflexivity).
    assert (R2 : q_trimo s' = Some o) by (rewrite <- T; reflexivity).
    assert (R3 : q_trimr s' = Some r) by (rewrite <- T; reflexivity).
    clear T. rewrite W1, O1, F1, E1, M1, G1, R1, R2, R3.
    split; [reflexivity|]. split; [reflexivity|]. split; [reflexivity|].
    split; [exact (eq2_trim_seq _ _ (proj2 S1))|]. split; [exact (eq2_trim_seq _ _ (proj2 S2))|].
    split; [exact (eq2_trim_seq _ _ (proj2 S3))|]. split; [exact (eq2_trim_seq _ _ (proj2 S4))|].
    split; [exact (proj1 Tp)|]. split; [exact (proj2 Tp)|]. split; reflexivity.
Qed.

(** The trimmed copy shows the same spectrum as trimming in place, continuum images aside. *)
Lemma trim_2D_copy_ok z rest obs o named file s wave flux err mask weight ks :
  arrays2 s wave flux err mask weight -> asked z rest obs o -> kept o wave ks -> ks <> [] ->
  exists s' s2, trim_2D_copy z rest obs named file s = Ok s' /\ trim_2D_inplace z rest obs named file s = (s2, Ok tt) /\
    q_wave s' = q_wave s2 /\ q_obs s' = q_obs s2 /\ q_rest s' = q_rest s2 /\ q_flux s' = q_flux s2 /\ q_err s' = q_err s2 /\
    q_mask s' = q_mask s2 /\ q_weight s' = q_weight s2 /\ q_incl s' = q_incl s /\ q_cont s' = q_cont s /\
    q_trimo s' = q_trimo s2 /\ q_trimr s' = q_trimr s2.
Proof.
  intros A Ha K N. destruct (trim_range_asked z rest obs o named file Ha) as [r T].
  rewrite (trim_2D_run z rest obs o named file s wave flux err mask weight ks r A T K N). cbv zeta.
  destruct A as (W & O & F & E & M & G & [S1r S1c] & [S2r S2c] & [S3r S3c] & [S4r S4c]).
  assert (B := fun k => kept_bound _ _ _ k K).
  unfold trim_2D_copy. rewrite T. cbn [bind snd fst]. rewrite O. cbn [need bind]. rewrite (kept_unique _ _ _ K). cbv zeta.
  destruct ks as [|k0 kt] eqn:Ek; [congruence|]. rewrite <- Ek in *. clear Ek.
  rewrite W, F, E, M, G. rewrite take_o_ok by exact B. cbn [bind].
  rewrite (take_cols_o_ok flux _ _ S1c B), (take_cols_o_ok err _ _ S2c B), (take_cols_o_ok mask _ _ S3c B), (take_cols_o_ok weight _ _ S4c B).
  cbn [bind]. do 2 eexists. split; [reflexivity|]. split; [reflexivity|]. repeat split; reflexivity.
Qed.

Lemma trim_2D_copy_empty z rest obs o named file s wave flux err mask weight :
  arrays2 s wave flux err mask weight -> asked z rest obs o -> kept o wave [] ->
  exists s' s2, trim_2D_copy z rest obs named file s = Ok s' /\ trim_2D_inplace z rest obs named file s = (s2, Ok tt) /\ s' = s2.
Proof.
  intros A Ha K. destruct (trim_range_asked z rest obs o named file Ha) as [r T]. destruct A as (W & O & _).
  unfold trim_2D_copy, trim_2D_inplace. rewrite T. cbn [bind snd fst]. rewrite O. cbn [need bind]. rewrite (kept_unique _ _ _ K). cbv zeta.
  unfold liftR, modS, getS, bindS. cbn [set_q_trimo set_q_trimr q_obs]. rewrite O. cbn [need]. cbn [snd fst]. rewrite (kept_unique _ _ _ K). do 2 eexists. split; [reflexivity|]. split; [reflexivity|]. reflexivity.
Qed.
