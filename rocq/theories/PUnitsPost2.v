(* Proofs: the analysis of a chain in other units. *)
From Coq Require Import String Reals List Bool Arith ZArith Lia Lra Permutation.
From Verif Require Import PyFloat PyBase Arr PyNum MParams MProf MPost SParams SPost SOrder PPost PPost2 PPost3 POrder PUnitsPost PPostEx.
Import ListNotations.
Local Open Scope R_scope.

Ltac infp := repeat (rewrite inf_pos by assumption).

Lemma inf_mult c a x : 0 < a -> inf_scale c (a * x) = inf_scale c x.
Proof.
  intros A. unfold inf_scale. destruct (Reqb x 0) eqn:E; [apply Reqb_true in E; subst; rewrite (proj2 (Reqb_true (a * 0) 0)) by ring; reflexivity|].
  apply Reqb_false in E. rewrite (proj2 (Reqb_false (a * x) 0)) by nra. destruct (Rltb 0 x) eqn:L.
  - apply Rltb_true in L. now rewrite (proj2 (Rltb_true 0 (a * x))) by nra.
  - apply Rltb_false in L. now rewrite (proj2 (Rltb_false 0 (a * x))) by nra.
Qed.
Lemma mul_inf c a x : 0 < a -> fmul (Fin a) (inf_scale c x) = inf_scale c x.
Proof.
  intros A. assert (X : forall z, isfinite z = false -> fmul (Fin a) z = z) by (intros [z| | |] Z; try discriminate; cbn [fmul]; infp; reflexivity).
  apply X. unfold inf_scale. destruct (Reqb x 0); [reflexivity|]. now destruct (Bool.eqb _ _).
Qed.
Lemma fmul_mul a x y : 0 < a -> fmul (fmul (Fin a) x) y = fmul (Fin a) (fmul x y).
Proof.
  intros A. destruct x as [x| | |], y as [y| | |]; try reflexivity;
  change (fmul (Fin x) PInf) with (inf_scale true x) || change (fmul (Fin x) NInf) with (inf_scale false x) || change (fmul PInf (Fin y)) with (inf_scale true y) || change (fmul NInf (Fin y)) with (inf_scale false y) || idtac;
  rewrite ?mul_inf by exact A; cbn [fmul]; infp; cbn [fmul]; infp; rewrite ?inf_mult by exact A; auto; f_equal; ring.
Qed.
Lemma fmul_C x y : fmul x y = fmul y x.
Proof. destruct x, y; cbn; auto. f_equal. ring. Qed.
Lemma fdiv_same b x y : 0 < b -> fdiv (fmul (Fin b) x) (fmul (Fin b) y) = fdiv x y.
Proof.
  intros B. destruct x as [x| | |], y as [y| | |]; cbn [fmul]; infp; auto; cbn [fdiv].
  - destruct (Reqb y 0) eqn:E.
    + apply Reqb_true in E. subst. rewrite (proj2 (Reqb_true (b * 0) 0)) by ring. destruct (Reqb x 0) eqn:X.
      * apply Reqb_true in X. subst. now rewrite (proj2 (Reqb_true (b * 0) 0)) by ring.
      * apply Reqb_false in X. rewrite (proj2 (Reqb_false (b * x) 0)) by nra. destruct (Rltb 0 x) eqn:L.
        -- apply Rltb_true in L. now rewrite (proj2 (Rltb_true 0 (b * x))) by nra.
        -- apply Rltb_false in L. now rewrite (proj2 (Rltb_false 0 (b * x))) by nra.
    + apply Reqb_false in E. rewrite (proj2 (Reqb_false (b * y) 0)) by nra. f_equal. field. split; lra.
  - destruct (Rltb y 0) eqn:L; [apply Rltb_true in L; rewrite (proj2 (Rltb_true (b * y) 0)) by nra|apply Rltb_false in L; rewrite (proj2 (Rltb_false (b * y) 0)) by nra]; reflexivity.
  - destruct (Rltb y 0) eqn:L; [apply Rltb_true in L; rewrite (proj2 (Rltb_true (b * y) 0)) by nra|apply Rltb_false in L; rewrite (proj2 (Rltb_false (b * y) 0)) by nra]; reflexivity.
Qed.
Lemma vel_units a b va rt r : 0 < a -> 0 < b ->
  vel_arctan [fmul (Fin a) va; fmul (Fin b) rt] (fmul (Fin b) r) (Fin 0) = fmul (Fin a) (vel_arctan [va; rt] r (Fin 0)).
Proof.
  intros A B. cbn [vel_arctan]. rewrite fdiv_same by exact B. rewrite (fmul_C (Fin (2 / PI))), fmul_mul by exact A.
  rewrite (fmul_C va). apply fmul_mul. exact A.
Qed.
Lemma sig_units a b s r : 0 < a -> 0 < b ->
  disp_const [fmul (Fin a) s] (fmul (Fin b) r) (Fin 0) = fmul (Fin a) (disp_const [s] r (Fin 0)).
Proof.
  intros A B. cbn [disp_const]. assert (Z : forall c, inf_scale c 0 = NaN) by (intros c; unfold inf_scale; now rewrite (proj2 (Reqb_true 0 0)) by reflexivity).
  destruct r as [r| | |]; cbn [fmul]; infp; cbn [fmul]; rewrite ?Z; auto.
  destruct s as [s| | |]; cbn [fmul fadd]; infp; auto. f_equal. ring.
Qed.
Lemma fabs_units a x : 0 < a -> fabs (fmul (Fin a) x) = fmul (Fin a) (fabs x).
Proof. intros A. destruct x as [x| | |]; cbn [fmul fabs]; infp; auto. f_equal. rewrite Rabs_mult, (Rabs_right a) by lra. reflexivity. Qed.

Lemma abs_units f f' h h2 u : f_abs f' = f_abs f -> f_vary f' = f_vary f -> f_prof f' = f_prof f -> length (f_theta f') = length (f_theta f) ->
  (forall j, 0 < u j) -> in_units u (h_flat h) (h_flat h2) -> dim2 (h_chain h2) = dim2 (h_chain h) ->
  match abs_sigma f h, abs_sigma f' h2 with
  | Ok k, Ok k2 => cols (h_flat k) = cols (h_flat h) /\ in_units u (h_flat k) (h_flat k2)
  | Err e, Err e2 => e2 = e | _, _ => False end.
Proof.
  intros FA FV FP FL U (R & C & H) D. unfold abs_sigma. rewrite FA, FV, FP, FL. destruct (f_abs f); [|split; [reflexivity|now split]]. destruct (Nat.eqb _ 1); [|reflexivity].
  destruct (free_inds _ _ _) as [fi|e]; [|reflexivity]. cbn [bind]. destruct (getn fi _) as [[j|]|e]; [| |reflexivity]; cbn [bind].
  - rewrite D, C. destruct (_ && _)%bool; [|reflexivity]. unfold in_units. cbn [h_flat rows cols at2]. split; [reflexivity|]. split; [exact R|]. split; [reflexivity|].
    intros i c Hi Hc. rewrite H by auto. destruct (Nat.eqb c j); [apply fabs_units, U|reflexivity].
  - unfold in_units. cbn [h_flat rows cols at2]. split; [reflexivity|]. split; [exact R|]. split; [exact C|].
    intros i c Hi Hc. rewrite H by auto. apply fabs_units, U.
Qed.

Lemma theta_chain_units u w a b : in_units u a b -> forall theta theta' vary n m,
  length theta' = length theta -> (forall i, nth_error theta' i = option_map (fmul (Fin (w (m + i)%nat))) (nth_error theta i)) ->
  (forall i, free vary i -> u (n + rank vary i)%nat = w (m + i)%nat) ->
  match theta_chain theta vary a n, theta_chain theta' vary b n with
  | Ok t, Ok t2 => length t2 = length t /\ forall i g, nth_error t i = Some g -> exists g2, nth_error t2 i = Some g2 /\
      forall k, (k < rows a)%nat -> g2 k = fmul (Fin (w (m + i)%nat)) (g k)
  | Err e, Err e2 => e2 = e | _, _ => False end.
Proof.
  intros (R & C & H). induction theta as [|x theta IH]; intros [|x' theta'] vary n m L V F; try discriminate.
  - destruct vary; cbn; split; auto; intros [|i] g E; discriminate.
  - assert (V' : forall i, nth_error theta' i = option_map (fmul (Fin (w (S m + i)%nat))) (nth_error theta i)).
    { intros i. specialize (V (S i)). cbn [nth_error] in V. now replace (S m + i)%nat with (m + S i)%nat by lia. }
    assert (X0 : x' = fmul (Fin (w m)) x) by (specialize (V 0%nat); cbn in V; rewrite Nat.add_0_r in V; now injection V).
    cbn [length] in L. injection L as L.
    destruct vary as [|[] vary]; cbn [theta_chain]; [reflexivity| |].
    + rewrite C. destruct (Nat.ltb_spec n (cols a)) as [Hn|Hn]; [|reflexivity].
      assert (F' : forall i, free vary i -> u (S n + rank vary i)%nat = w (S m + i)%nat).
      { intros i Fi. specialize (F (S i) Fi). cbn [rank] in F. replace (S m + i)%nat with (m + S i)%nat by lia. rewrite <- F. f_equal. lia. }
      specialize (IH theta' vary (S n) (S m) L V' F').
      destruct (theta_chain theta vary a (S n)) as [t|e], (theta_chain theta' vary b (S n)) as [t2|e2]; try contradiction; cbn [bind]; [|exact IH].
      destruct IH as [L2 G]. split; [cbn; congruence|]. intros [|i] g E.
      * cbn in E. injection E as <-. eexists. split; [reflexivity|]. intros k Hk. cbn beta. rewrite (H k n Hk Hn). f_equal. f_equal.
        specialize (F 0%nat eq_refl). cbn [rank] in F. rewrite Nat.add_0_r in F. exact F.
      * cbn in E. destruct (G i g E) as (g2 & E2 & G2). exists g2. split; [exact E2|]. now replace (m + S i)%nat with (S m + i)%nat by lia.
    + assert (F' : forall i, free vary i -> u (n + rank vary i)%nat = w (S m + i)%nat).
      { intros i Fi. specialize (F (S i) Fi). cbn [rank] in F. replace (S m + i)%nat with (m + S i)%nat by lia. rewrite <- F. f_equal. }
      specialize (IH theta' vary n (S m) L V' F').
      destruct (theta_chain theta vary a n) as [t|e], (theta_chain theta' vary b n) as [t2|e2]; try contradiction; cbn [bind]; [|exact IH].
      destruct IH as [L2 G]. split; [cbn; congruence|]. intros [|i] g E.
      * cbn in E. injection E as <-. eexists. split; [reflexivity|]. intros k Hk. cbn beta. now rewrite Nat.add_0_r.
      * cbn in E. destruct (G i g E) as (g2 & E2 & G2). exists g2. split; [exact E2|]. now replace (m + S i)%nat with (S m + i)%nat by lia.
Qed.

Lemma add_units w u f f' h h2 : (forall i, 0 < w i) -> fit_in_units w f f' -> columns_in_units w (f_vary f) (cols (h_flat h)) u ->
  in_units u (h_flat h) (h_flat h2) -> dim2 (h_chain h2) = dim2 (h_chain h) ->
  match add_v_re_22 f h, add_v_re_22 f' h2 with
  | Ok k, Ok k2 => in_units u (h_flat k) (h_flat k2) /\ h_names k2 = h_names k
  | Err e, Err e2 => e2 = e | _, _ => False end.
Proof.
  intros W (P & P' & W2 & (TL & TV) & RE & FA & FV & FN) (CU & DU & U) H D.
  pose proof (abs_units f f' h h2 u FA FV ltac:(congruence) TL U H D) as A. unfold add_v_re_22.
  destruct (abs_sigma f h) as [k|e], (abs_sigma f' h2) as [k2|e2]; try contradiction; cbn [bind]; [|exact A].
  destruct A as (C0 & I). pose proof (theta_chain_units u w _ _ I (f_theta f) (f_theta f') (f_vary f) 0 0 TL TV CU) as T.
  destruct I as (R1 & C1 & H1). rewrite FV, FN, P, P'.
  destruct (f_theta f) as [|x0 th], (f_theta f') as [|x0' th']; try discriminate TL; [reflexivity|]. 
  destruct (theta_chain (x0 :: th) (f_vary f) (h_flat k) 0) as [tc|e], (theta_chain (x0' :: th') (f_vary f) (h_flat k2) 0) as [tc2|e2]; try contradiction; cbn [bind]; [|exact T].
  destruct T as [LL G]. rewrite LL. cbn [fiducial kp_nv kp_nd].
  destruct (Nat.ltb (length tc) 2); [reflexivity|]. cbn [bind].
  destruct (Nat.ltb_spec (length tc) (2 + 1)) as [B|B]; [reflexivity|]. cbn [bind].
  destruct (free_names (f_names f) (f_vary f)) as [ns|e]; [|reflexivity]. cbn [bind h_flat h_names]. split; [|reflexivity].
  destruct tc as [|g0 [|g1 [|g2 tc]]]; cbn [length] in B; try lia. destruct tc2 as [|q0 [|q1 [|q2 tc2]]]; try discriminate LL.
  destruct (G 0%nat g0 eq_refl) as (? & Q0 & G0). injection Q0 as <-.
  destruct (G 1%nat g1 eq_refl) as (? & Q1 & G1). injection Q1 as <-.
  destruct (G 2%nat g2 eq_refl) as (? & Q2 & G2). injection Q2 as <-. cbn [Nat.add] in G0, G1, G2. clear G.
  unfold add_col, in_units. cbn [rows cols at2 firstn skipn map]. rewrite R1, C1. split; [reflexivity|]. split; [reflexivity|].
  intros i j Hi Hj. rewrite (G0 i Hi), (G1 i Hi), (G2 i Hi), RE, W2.
  assert (RR : fmul (Fin (22 / 10 / (1676 / 1000))) (fmul (Fin (w 1%nat)) (f_re f)) = fmul (Fin (w 1%nat)) (fmul (Fin (22 / 10 / (1676 / 1000))) (f_re f))).
  { rewrite (fmul_C (Fin (22 / 10 / (1676 / 1000)))), fmul_mul by apply W. f_equal. apply fmul_C. }
  rewrite RR. cbn [kp_vel kp_sig fiducial]. rewrite !vel_units, !sig_units by apply W.
  rewrite <- C0 in DU.
  destruct (Nat.ltb_spec j (cols (h_flat k))) as [J|J].
  - repeat match goal with |- context [Nat.ltb ?x ?y] => rewrite (proj2 (Nat.ltb_lt x y)) by lia end. apply H1; auto.
  - rewrite (DU j) by lia. repeat match goal with |- context [Nat.ltb ?x ?y] => destruct (Nat.ltb_spec x y) end; reflexivity.
Qed.

Lemma chain_units w u K links f f' h h2 : units_free K -> (forall i, 0 < w i) -> fit_in_units w f f' -> columns_in_units w (f_vary f) (cols (h_flat h)) u ->
  in_units u (h_flat h) (h_flat h2) -> dim2 (h_chain h2) = dim2 (h_chain h) ->
  match chain_results K links f h, chain_results K links f' h2 with
  | Ok (h', p), Ok (h2', p2) => in_units u (h_flat h') (h_flat h2') /\ h_names h2' = h_names h' /\ post_in_units u p p2
  | Err e, Err e2 => e2 = e
  | _, _ => False
  end.
Proof.
  intros KU W F CU H D. pose proof (add_units w u f f' h h2 W F CU H D) as A. unfold chain_results.
  destruct F as (_ & _ & _ & _ & _ & _ & FV & _). destruct CU as (_ & _ & U). rewrite FV.
  destruct (add_v_re_22 f h) as [k|e], (add_v_re_22 f' h2) as [k2|e2]; try contradiction; cbn [bind]; auto.
  destruct A as (I & N). pose proof (posterior_units K links (f_vary f) u _ _ KU U I) as PU.
  destruct (posterior K links (f_vary f) (h_flat k)) as [p|e], (posterior K links (f_vary f) (h_flat k2)) as [p2|e2]; try contradiction; cbn [bind]; auto.
Qed.
