(* Property theorems: which lines a 2-D fit models (C115). *)
From Coq Require Import String Reals List.
From Verif Require Import PyFloat PyBase PyNum MIo MLines2D SFit1D SLines2D PLines2D.
Import ListNotations.
Local Open Scope R_scope.

(** C115: with no lines set, a group given to the fit is used exactly when the group and all its lines are tabulated; both objects then hold the tabulated lines. *)
Theorem C115_group : forall L g skip p b, setup_fit L (Some g) skip p (mkBoth unset unset) = (b, Ok tt) <->
  exists ns ws rs, group_lines (b_names L) g ns /\ tabled (b_lines L) ns ws rs /\ b = mkBoth (full ns ws rs) (full ns ws rs).
Proof. exact group_used. Qed.
Print Assumptions C115_group.

Example C115_example_group : exists b, setup_fit shipped (Some "OIII"%string) false (mkSpset None lib_names lib_lines false) (mkBoth unset unset) = (b, Ok tt) /\
  l_names (spc b) = Some ["OIII5008"; "OIII4960"]%string /\ modelled b = (Some [500824 / 100; 4960295 / 1000], Some [1; 333333 / 1000000]).
Proof. exact ex_halpha. Qed.

(** C115: lines already set on the spectrum stay, whatever is given to the fit. *)
Theorem C115_spectrum_wins : forall L g skip p o ns ws rs,
  exists o', setup_fit L g skip p (mkBoth o (full ns ws rs)) = (mkBoth o' (full ns ws rs), Ok tt) /\
  l_names o' = Some (match l_names o with Some n => n | None => ns end) /\
  l_rest o' = Some (match l_rest o with Some w => w | None => ws end) /\
  l_ratio o' = Some (match l_ratio o with Some r => r | None => rs end).
Proof. exact spectrum_wins. Qed.
Print Assumptions C115_spectrum_wins.

(** C115: when no lines are given to the fit and the spectrum has no wavelengths, wavelengths and strengths belong to the names. *)
Theorem C115_aligned : forall L g skip p nso b, setup_fit L g skip p (mkBoth unset (mkLset nso None None)) = (b, Ok tt) ->
  exists ns ws rs, spc b = full ns ws rs /\ own b = full ns ws rs /\ tabled (b_lines L) ns ws rs /\
    match nso with Some n => ns = n | None => exists h, g = Some h /\ group_lines (b_names L) h ns end.
Proof. exact aligned. Qed.
Print Assumptions C115_aligned.

(** C115 refuted: lines given to the fit itself are never modelled; they fail without a line group on the spectrum, and else the lines of that group are modelled. *)
Theorem C115_explicit_refuted : forall L g p ns ws rs s, sp_done p = false ->
  let run l := setup_fit L g false p (mkBoth l s) in
  forall ns' ws' rs', spc (fst (run (full ns ws rs))) = spc (fst (run (full ns' ws' rs'))) /\
    snd (run (full ns ws rs)) = snd (run (full ns' ws' rs')) /\
  (s = unset -> sp_group p = None -> snd (run (full ns ws rs)) = Err ValueError) /\
  (s = unset -> forall h ms vs qs, sp_group p = Some h -> group_lines (sp_names p) h ms -> tabled (sp_lines p) ms vs qs ->
     run (full ns ws rs) = (mkBoth (full ns ws rs) (full ms vs qs), Ok tt)).
Proof. exact explicit_ignored. Qed.
Print Assumptions C115_explicit_refuted.

(** [O III] asked for, H alpha modelled. *)
Example C115_example_explicit : exists b, setup_fit shipped None false (mkSpset (Some "Halpha"%string) lib_names lib_lines false)
    (mkBoth (full ["OIII5008"]%string [500824 / 100] [1]) unset) = (b, Ok tt) /\ modelled b = (Some [656460 / 100], Some [1]).
Proof. exact ex_ignored. Qed.

(** C115 refuted: names on the spectrum with the wavelengths of other lines. *)
Theorem C115_mixed_refuted : exists b, setup_fit shipped None false (mkSpset None lib_names lib_lines false)
    (mkBoth (mkLset (Some ["OIII5008"; "OIII4960"]%string) None None) (mkLset (Some ["HA6565"]%string) None None)) = (b, Ok tt) /\
  l_names (spc b) = Some ["HA6565"]%string /\ l_rest (spc b) = Some [500824 / 100; 4960295 / 1000].
Proof. exact mixed. Qed.
Print Assumptions C115_mixed_refuted.
