From Coq Require Import String Ascii Reals Lra List Bool.
From Verif Require Import PyFloat PyBase PyNum MIo MLines2D SFit1D SLines2D PAper2D PFit1D5.
Import ListNotations.
Local Open Scope R_scope.

Lemma first_unique {A} (t : list (string * A)) k a b : first_row t k a -> first_row t k b -> a = b.
Proof. intros H1 H2. apply lookup_ok in H1. apply lookup_ok in H2. congruence. Qed.

Lemma no_comma_split w rest : no_comma w ->
  split_comma (w ++ String ","%char rest)%string = w :: split_comma rest.
Proof.
  induction w as [|c w IH]; intros H; cbn [String.append split_comma].
  - reflexivity.
  - cbn in H. destruct H as [N H]. destruct (Ascii.eqb_spec c ","%char) as [->|]; [congruence|]. now rewrite (IH H).
Qed.
Lemma no_comma_one w : no_comma w -> split_comma w = [w].
Proof.
  induction w as [|c w IH]; intros H; cbn [split_comma]; [reflexivity|]. cbn in H. destruct H as [N H].
  destruct (Ascii.eqb_spec c ","%char) as [->|]; [congruence|]. now rewrite (IH H).
Qed.
Lemma split_joined ns : ns <> [] -> Forall no_comma ns -> split_comma (joined ns) = ns.
Proof.
  induction ns as [|w ns IH]; [congruence|]. intros _ F. inversion F as [|? ? Fw Fn]; subst. destruct ns as [|w' ns].
  - cbn. now apply no_comma_one.
  - change (joined (w :: w' :: ns)) with (w ++ String ","%char (joined (w' :: ns)))%string.
    rewrite no_comma_split by exact Fw. f_equal. apply IH; [discriminate|exact Fn].
Qed.

Lemma names_ok t g ns : read_line_names t g = Ok ns <-> group_lines t g ns.
Proof.
  unfold read_line_names, group_lines. split.
  - destruct (lookup t g) as [s|] eqn:E; [|discriminate]. cbn [bind]. intros H. inversion H; subst ns. clear H.
    destruct (split_comma_spec s) as [J F]. rewrite J. split; [apply split_ne|]. split; [now apply lookup_ok|exact F].
  - intros (N&F&C). apply lookup_ok in F. rewrite F. cbn [bind]. now rewrite (split_joined ns N C).
Qed.

Lemma each_tabled t ns : forall ws rs, each (read_restwave t) ns = Ok ws /\ each (read_line_ratio t) ns = Ok rs <-> tabled t ns ws rs.
Proof.
  induction ns as [|n ns IH]; intros ws rs; cbn [each].
  - split; [intros [A B]; inversion A; inversion B; constructor|]. intros H. inversion H. auto.
  - unfold read_restwave at 1, read_line_ratio at 1. destruct (lookup t n) as [[w r]|e] eqn:E; cbn [bind fst snd].
    + split.
      * destruct (each (read_restwave t) ns) as [ws'|] eqn:E1; [|intros [A _]; discriminate].
        destruct (each (read_line_ratio t) ns) as [rs'|] eqn:E2; [|intros [_ A]; discriminate]. cbn [bind].
        intros [A B]. inversion A. inversion B. constructor; [now apply lookup_ok|]. apply IH. auto.
      * intros H. inversion H as [|? w' r' ? ws' rs' F T]; subst. apply lookup_ok in F. rewrite E in F. inversion F; subst.
        apply IH in T. destruct T as [-> ->]. cbn. auto.
    + split; [intros [A _]; discriminate|]. intros H. inversion H; subst. match goal with F : first_row _ _ _ |- _ => apply lookup_ok in F end. congruence.
Qed.
Lemma rest_ratio t ns : (exists ws, each (read_restwave t) ns = Ok ws) <-> exists rs, each (read_line_ratio t) ns = Ok rs.
Proof.
  induction ns as [|n ns IH]; cbn [each]; [split; eauto|]. unfold read_restwave at 1, read_line_ratio at 1.
  destruct (lookup t n) as [[w r]|e]; cbn [bind fst snd]; [|split; intros [? ?]; discriminate].
  destruct (each (read_restwave t) ns) as [ws|]; destruct (each (read_line_ratio t) ns) as [rs|]; cbn [bind]; split; intros [? ?]; eauto; try discriminate.
  - destruct (proj1 IH) as [? ?]; [eauto|discriminate].
  - destruct (proj2 IH) as [? ?]; [eauto|discriminate].
Qed.

Ltac ul := unfold setup_fit, setup_names, setup_rest, setup_ratio, initialize_lineset, names_of, on_own, on_spc, set_names, set_rest, set_ratio;
  ub; cbn [own spc l_names l_rest l_ratio].

Lemma init_full p b ns ws rs : spc b = full ns ws rs -> initialize_lineset p b = (b, Ok tt).
Proof. destruct b as [o s]. cbn. intros ->. reflexivity. Qed.

(* lines from the fit's group *)
Lemma group_used L g skip p b : setup_fit L (Some g) skip p (mkBoth unset unset) = (b, Ok tt) <->
  exists ns ws rs, group_lines (b_names L) g ns /\ tabled (b_lines L) ns ws rs /\ b = mkBoth (full ns ws rs) (full ns ws rs).
Proof.
  assert (E : forall ns ws rs, read_line_names (b_names L) g = Ok ns -> each (read_restwave (b_lines L)) ns = Ok ws ->
     each (read_line_ratio (b_lines L)) ns = Ok rs -> setup_fit L (Some g) skip p (mkBoth unset unset) = (mkBoth (full ns ws rs) (full ns ws rs), Ok tt)).
  { intros ns ws rs E1 E2 E3. ul. cbn [unset l_names l_rest l_ratio]. rewrite E1. cbn [own spc l_names l_rest l_ratio unset].
    rewrite E2. cbn [own spc l_names l_rest l_ratio unset]. rewrite E3. cbn [own spc l_names l_rest l_ratio unset].
    destruct (skip || sp_done p); reflexivity. }
  split.
  - intros H. destruct (read_line_names (b_names L) g) as [ns|] eqn:E1.
    2:{ revert H. ul. cbn [unset l_names]. rewrite E1. discriminate. }
    destruct (each (read_restwave (b_lines L)) ns) as [ws|] eqn:E2.
    2:{ revert H. ul. cbn [unset l_names]. rewrite E1. cbn [own spc l_names l_rest l_ratio unset]. rewrite E2. discriminate. }
    destruct (proj1 (rest_ratio (b_lines L) ns) (ex_intro _ ws E2)) as [rs E3].
    rewrite (E ns ws rs eq_refl E2 E3) in H. inversion H. exists ns, ws, rs. split; [now apply names_ok|]. split; [now apply each_tabled|reflexivity].
  - intros (ns&ws&rs&G&T&->). apply names_ok in G. apply each_tabled in T. destruct T. now apply E.
Qed.

(* the spectrum's lines win *)
Lemma spectrum_wins L g skip p o ns ws rs : exists o', setup_fit L g skip p (mkBoth o (full ns ws rs)) = (mkBoth o' (full ns ws rs), Ok tt) /\
  l_names o' = Some (match l_names o with Some n => n | None => ns end) /\
  l_rest o' = Some (match l_rest o with Some w => w | None => ws end) /\
  l_ratio o' = Some (match l_ratio o with Some r => r | None => rs end).
Proof.
  destruct o as [[n|] [w|] [r|]]; ul; cbn [full own spc l_names l_rest l_ratio];
  (destruct (skip || sp_done p); eexists; (split; [reflexivity|]); cbn [l_names l_rest l_ratio]; auto).
Qed.

(* lines given to the fit itself: what is modelled does not depend on them *)
Lemma explicit_ignored L g p ns ws rs s : sp_done p = false ->
  let run l := setup_fit L g false p (mkBoth l s) in
  forall ns' ws' rs', spc (fst (run (full ns ws rs))) = spc (fst (run (full ns' ws' rs'))) /\
    snd (run (full ns ws rs)) = snd (run (full ns' ws' rs')) /\
  (s = unset -> sp_group p = None -> snd (run (full ns ws rs)) = Err ValueError) /\
  (s = unset -> forall h ms vs qs, sp_group p = Some h -> group_lines (sp_names p) h ms -> tabled (sp_lines p) ms vs qs ->
     run (full ns ws rs) = (mkBoth (full ns ws rs) (full ms vs qs), Ok tt)).
Proof.
  intros D run ns' ws' rs'.
  assert (E : forall a b c, run (full a b c) = initialize_lineset p (mkBoth (full a b c) s)).
  { intros. unfold run. ul. cbn [full l_names l_rest l_ratio]. rewrite D. reflexivity. }
  rewrite !E. split; [|split; [|split]].
  - ul. destruct s as [[sn|] [sw|] [sr|]]; cbn [own spc l_names l_rest l_ratio];
    repeat (match goal with |- context [match ?x with Ok _ => _ | Err _ => _ end] => destruct x | |- context [sp_group p] => destruct (sp_group p) end; cbn [fst own spc l_names l_rest l_ratio]); reflexivity.
  - ul. destruct s as [[sn|] [sw|] [sr|]]; cbn [own spc l_names l_rest l_ratio];
    repeat (match goal with |- context [match ?x with Ok _ => _ | Err _ => _ end] => destruct x | |- context [sp_group p] => destruct (sp_group p) end; cbn [fst own spc l_names l_rest l_ratio]); reflexivity.
  - intros -> Hg. ul. cbn [unset l_names]. rewrite Hg. reflexivity.
  - intros -> h ms vs qs Hg G T. apply names_ok in G. apply each_tabled in T. destruct T as [T1 T2].
    ul. cbn [unset l_names l_rest l_ratio]. rewrite Hg, G. cbn [own spc l_names l_rest l_ratio unset]. rewrite T1. cbn [own spc l_names l_rest l_ratio unset]. now rewrite T2.
Qed.

(* without lines given to the fit, the wavelengths belong to the names *)
Lemma aligned L g skip p nso b : setup_fit L g skip p (mkBoth unset (mkLset nso None None)) = (b, Ok tt) ->
  exists ns ws rs, spc b = full ns ws rs /\ own b = full ns ws rs /\ tabled (b_lines L) ns ws rs /\
    match nso with Some n => ns = n | None => exists h, g = Some h /\ group_lines (b_names L) h ns end.
Proof.
  destruct nso as [n|].
  - intros H. assert (exists ws, each (read_restwave (b_lines L)) n = Ok ws) as [ws E1].
    { destruct (each (read_restwave (b_lines L)) n) eqn:E; [eauto|]. revert H. ul. cbn [unset l_names l_rest l_ratio]. cbn [own spc l_names l_rest l_ratio]. rewrite E. discriminate. }
    destruct (proj1 (rest_ratio (b_lines L) n) (ex_intro _ ws E1)) as [rs E2].
    revert H. ul. cbn [unset own spc l_names l_rest l_ratio]. rewrite E1. cbn [own spc l_names l_rest l_ratio]. rewrite E2. cbn [own spc l_names l_rest l_ratio].
    intros H. exists n, ws, rs. destruct (skip || sp_done p); inversion H; subst b; (split; [reflexivity|]); (split; [reflexivity|]); (split; [now apply each_tabled|reflexivity]).
  - intros H. destruct g as [h|]; [|revert H; ul; discriminate].
    apply group_used in H. destruct H as (ns&ws&rs&G&T&->). exists ns, ws, rs. repeat split; eauto.
Qed.

(* names given to the fit, other names on the spectrum: the wavelengths of the former are stored beside the latter *)
Lemma mixed : exists b, setup_fit shipped None false (mkSpset None lib_names lib_lines false)
    (mkBoth (mkLset (Some ["OIII5008"; "OIII4960"]%string) None None) (mkLset (Some ["HA6565"]%string) None None)) = (b, Ok tt) /\
  l_names (spc b) = Some ["HA6565"]%string /\ l_rest (spc b) = Some [500824 / 100; 4960295 / 1000].
Proof. eexists. ul. cbn. auto. Qed.

Lemma ex_halpha : exists b, setup_fit shipped (Some "OIII"%string) false (mkSpset None lib_names lib_lines false) (mkBoth unset unset) = (b, Ok tt) /\
  l_names (spc b) = Some ["OIII5008"; "OIII4960"]%string /\ modelled b = (Some [500824 / 100; 4960295 / 1000], Some [1; 333333 / 1000000]).
Proof. eexists. ul. cbn. auto. Qed.

Lemma ex_ignored : exists b, setup_fit shipped None false (mkSpset (Some "Halpha"%string) lib_names lib_lines false)
    (mkBoth (full ["OIII5008"]%string [500824 / 100] [1]) unset) = (b, Ok tt) /\ modelled b = (Some [656460 / 100], Some [1]).
Proof. eexists. ul. cbn. auto. Qed.
