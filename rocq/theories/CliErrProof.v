(** Standard error of the command line tools. *)
From Coq Require Import String.
From Verif Require Import Base JsonSpec JsonFaultSpec JsonModel JsonDenotes JsonFaultProof EniModel CliSpec CliModel CliProof ToolsProof CliErrModel.
From Coq Require Import List NArith ZArith Bool Lia.
From Coq.Init Require Import Byte.
From Coq.Strings Require Import Byte.
Import ListNotations.
Local Open Scope list_scope.

Section Err.
  Variables (prog desc suffix : bytes) (lay : layout) (path : bytes) (ops : list (bytes * opclass)).

  Lemma err_positionals argv l o p : Forall short (tl argv) -> positionals (tl argv) [l; o; p] ->
    main_stderr prog desc suffix lay path ops argv =
    if bytes_eqb l path then
      match find_symbol lay ops (o ++ suffix) with None => Ret [] | Some _ => m <- parse_stderr lay (cstr p) ;; Ret (B m) end
    else Ret [].
  Proof.
    intros Hs Hp. unfold main_stderr. destruct (opt_parse_eq argv Hs) as [(l' & o' & p' & Hp' & ->)|(Hn & _)]; [|exfalso; eapply Hn; eauto].
    pose proof (positionals_det _ _ _ Hp Hp') as E. injection E as <- <- <-. reflexivity.
  Qed.

  Lemma err_usage argv : Forall short (tl argv) -> (forall l o p, ~ positionals (tl argv) [l; o; p]) ->
    main_stderr prog desc suffix lay path ops argv = Ret (help prog desc).
  Proof.
    intros Hs Hn. unfold main_stderr. destruct (opt_parse_eq argv Hs) as [(l' & o' & p' & Hp' & ->)|(_ & o & ->)]; [exfalso; eapply Hn; eauto|reflexivity].
  Qed.
End Err.

Lemma construct_bad c lay text m : (N.of_nat (length text) < 2^28)%N -> bad_val (readable lay) text m -> construct c lay text = Exit 87.
Proof.
  intros Hl Hb. destruct (message_exactly lay text Hl) as (ok & v & msg & H1 & _ & _ & H4). destruct (proj1 (H4 m) Hb) as [Ho _]. unfold construct. rewrite H1, Ho. reflexivity.
Qed.

Lemma err_message strict lay path ops argv name c params m : Forall short (tl argv) -> NoDup (map fst ops) -> In (name, c) ops ->
  positionals (tl argv) [path; name; params] -> ~ In NUL params -> (N.of_nat (length params) < 2^28)%N ->
  bad_val (readable lay) params m ->
  (main_run strict (one_library lay path ops) argv = Exit 87 /\ run_stderr lay path ops argv = Ret (B m)) /\
  (main_gas strict (one_library lay path ops) argv = Exit 87 /\ gas_stderr lay path ops argv = Ret (B m)).
Proof.
  intros Hs Hd Hi Hp Hz Hl Hb. pose proof (construct_bad c lay params m Hl Hb) as Hc.
  destruct (message_exactly lay params Hl) as (ok & v & msg & _ & H2 & _ & H4). destruct (proj1 (H4 m) Hb) as [_ Em]. subst m.
  destruct (find_own lay ops name c Hi Hd ltac:(intros; apply suffix_ne)) as [Fg Fr].
  assert (Ep : bytes_eqb path path = true) by (destruct (bytes_eqb_spec path path); congruence).
  split; split.
  - rewrite (library_run strict lay path ops argv name c params) by auto. unfold c_run. rewrite cstr_id, Hc by auto. reflexivity.
  - unfold run_stderr. rewrite (err_positionals _ _ _ _ _ _ _ _ _ _ Hs Hp), Ep, Fr, cstr_id, H2 by auto. reflexivity.
  - destruct (gas_status strict (one_library lay path ops) argv Hs) as [H _]. specialize (H _ _ _ Hp). cbn [one_library dlopen dlsym] in H.
    rewrite Ep, Fg in H. rewrite H. unfold eni_gas_fn, c_gas. rewrite cstr_id, Hc by auto. reflexivity.
  - unfold gas_stderr. rewrite (err_positionals _ _ _ _ _ _ _ _ _ _ Hs Hp), Ep, Fg, cstr_id, H2 by auto. reflexivity.
Qed.

(** when nothing is written *)
Lemma err_silent_run lay path ops argv l o p : Forall short (tl argv) -> positionals (tl argv) [l; o; p] -> ~ In NUL p -> (N.of_nat (length p) < 2^28)%N ->
  l <> path \/ find_symbol lay ops (o ++ run_suffix) = None \/ (exists a r, gval (readable lay) p a r) -> run_stderr lay path ops argv = Ret [].
Proof.
  intros Hs Hp Hz Hl H. unfold run_stderr. rewrite (err_positionals _ _ _ _ _ _ _ _ _ _ Hs Hp). destruct (bytes_eqb_spec l path) as [E|E]; auto.
  destruct (find_symbol lay ops (o ++ run_suffix)) eqn:F; auto. destruct H as [H|[H|(a & r & H)]]; try congruence. rewrite cstr_id by auto.
  destruct (stderr_ok lay p Hl) as [(a' & r' & v & _ & _ & ->)|(m & Hb & _)]; [reflexivity|]. exfalso. eapply bad_no_value; eauto.
Qed.
Lemma err_silent_gas lay path ops argv l o p : Forall short (tl argv) -> positionals (tl argv) [l; o; p] -> ~ In NUL p -> (N.of_nat (length p) < 2^28)%N ->
  l <> path \/ find_symbol lay ops (o ++ gas_suffix) = None \/ (exists a r, gval (readable lay) p a r) -> gas_stderr lay path ops argv = Ret [].
Proof.
  intros Hs Hp Hz Hl H. unfold gas_stderr. rewrite (err_positionals _ _ _ _ _ _ _ _ _ _ Hs Hp). destruct (bytes_eqb_spec l path) as [E|E]; auto.
  destruct (find_symbol lay ops (o ++ gas_suffix)) eqn:F; auto. destruct H as [H|[H|(a & r & H)]]; try congruence. rewrite cstr_id by auto.
  destruct (stderr_ok lay p Hl) as [(a' & r' & v & _ & _ & ->)|(m & Hb & _)]; [reflexivity|]. exfalso. eapply bad_no_value; eauto.
Qed.
