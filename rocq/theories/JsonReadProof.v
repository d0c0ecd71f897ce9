(** The counting parser is the parser, and its counts: lemmas behind JsonReadProps.v. *)
From Coq Require Import String.
From Verif Require Import Base JsonModel JsonReadModel.
From Coq Require Import List NArith ZArith Bool Lia.
From Coq.Init Require Import Byte.
From Coq.Strings Require Import Byte.
Import ListNotations.
Local Open Scope list_scope.

(** ** Without the counts *)
Lemma snd_bind {A B} (m : counted A) (f : A -> counted B) m' g : snd m = m' -> (forall a, snd (f a) = g a) -> snd (cbind m f) = bind m' g.
Proof. intros <- H. unfold cbind. destruct (snd m); cbn; auto. Qed.

Ltac erase :=
  lazymatch goal with
  | |- snd (cbind _ (fun p => _)) = _ => eapply snd_bind; [erase|let a := fresh "a" in intros a; erase]
  | |- snd (free _) = _ => reflexivity
  | |- snd (match ?p with pair _ _ => _ end) = _ => destruct p; erase
  | |- snd (if ?b then _ else _) = _ => destruct b; erase
  | |- snd (let _ := _ in _) = _ => cbv zeta; erase
  | |- _ => try solve [auto]
  end.

Lemma have_c_snd c s : snd (have_c c s) = have c s.
Proof. unfold have_c, have. erase. Qed.
#[local] Hint Resolve have_c_snd : core.
Lemma have_if_c_snd p s buf : snd (have_if_c p s buf) = have_if p s buf.
Proof.
  unfold have_if_c, have_if, cbind, read_c. cbn [fst snd]. destruct (read s 0) as [h| | | |]; cbn; auto. destruct (p h); [|reflexivity]. cbn. destruct (advance s 1); reflexivity.
Qed.
#[local] Hint Resolve have_if_c_snd : core.
Lemma have_pat_loop_c_snd aend apat pat s : forall i, snd (have_pat_loop_c aend apat i pat s) = have_pat_loop aend apat i pat s.
Proof. induction pat as [|c pat IH]; intros i; cbn [have_pat_loop_c have_pat_loop]; [reflexivity|]. erase. Qed.
#[local] Hint Resolve have_pat_loop_c_snd : core.
Lemma have_pat_c_snd aend apat pat s : snd (have_pat_c aend apat pat s) = have_pat aend apat pat s.
Proof. unfold have_pat_c, have_pat. erase. Qed.
#[local] Hint Resolve have_pat_c_snd : core.
Lemma expect_c_snd c msg s : snd (expect_c c msg s) = expect c msg s.
Proof. unfold expect_c, expect. erase. Qed.
Lemma expect_pat_c_snd aend apat pat msg s : snd (expect_pat_c aend apat pat msg s) = expect_pat aend apat pat msg s.
Proof. unfold expect_pat_c, expect_pat. erase. Qed.
#[local] Hint Resolve expect_c_snd expect_pat_c_snd : core.
Lemma skip_ws_loop_c_snd f : forall s, snd (skip_ws_loop_c f s) = skip_ws_loop f s.
Proof. induction f as [|f IH]; intros s; cbn [skip_ws_loop_c skip_ws_loop]; [reflexivity|]. erase. Qed.
Lemma skip_ws_c_snd s : snd (skip_ws_c s) = skip_ws s.
Proof. apply skip_ws_loop_c_snd. Qed.
#[local] Hint Resolve skip_ws_c_snd : core.
Lemma digits_loop_c_snd f : forall s buf, snd (digits_loop_c f s buf) = digits_loop f s buf.
Proof. induction f as [|f IH]; intros s buf; cbn [digits_loop_c digits_loop]; [reflexivity|]. erase. Qed.
#[local] Hint Resolve digits_loop_c_snd : core.
Lemma parse_int_part_c_snd s buf : snd (parse_int_part_c s buf) = parse_int_part s buf.
Proof. unfold parse_int_part_c, parse_int_part. erase. Qed.
#[local] Hint Resolve parse_int_part_c_snd : core.
Lemma valid_code_loop_c_snd n : forall i s, snd (valid_code_loop_c n i s) = valid_code_loop n i s.
Proof. induction n as [|n IH]; intros i s; cbn [valid_code_loop_c valid_code_loop]; [reflexivity|]. erase. Qed.
#[local] Hint Resolve valid_code_loop_c_snd : core.
Lemma parse_codepoint_c_snd s : snd (parse_codepoint_c s) = parse_codepoint s.
Proof. unfold parse_codepoint_c, parse_codepoint. erase. Qed.
#[local] Hint Resolve parse_codepoint_c_snd : core.
Lemma parse_escape_c_snd s : snd (parse_escape_c s) = parse_escape s.
Proof. unfold parse_escape_c, parse_escape. erase. Qed.
#[local] Hint Resolve parse_escape_c_snd : core.
Lemma string_loop_c_snd f : forall s str, snd (string_loop_c f s str) = string_loop f s str.
Proof. induction f as [|f IH]; intros s str; cbn [string_loop_c string_loop]; [reflexivity|]. erase. Qed.
#[local] Hint Resolve string_loop_c_snd : core.
Lemma parse_string_c_snd k s c : snd (parse_string_c k s c) = parse_string k s c.
Proof. unfold parse_string_c, parse_string. erase. Qed.
Lemma parse_boolean_c_snd lay s c : snd (parse_boolean_c lay s c) = parse_boolean lay s c.
Proof. unfold parse_boolean_c, parse_boolean. erase. Qed.
Lemma parse_number_c_snd s c : snd (parse_number_c s c) = parse_number s c.
Proof. unfold parse_number_c, parse_number. erase. Qed.
#[local] Hint Resolve parse_string_c_snd parse_boolean_c_snd parse_number_c_snd : core.
Section Same.
  Variables (pc : bytes -> cbs -> counted (bytes * cbs)) (p : bytes -> cbs -> outcome (bytes * cbs)).
  Hypothesis Hp : forall s c, snd (pc s c) = p s c.
  Lemma elems_loop_c_snd f : forall s c, snd (elems_loop_c pc f s c) = elems_loop p f s c.
  Proof using Hp. induction f as [|f IH]; intros s c; cbn [elems_loop_c elems_loop]; [reflexivity|]. erase. Qed.
  Lemma members_loop_c_snd f : forall s c, snd (members_loop_c pc f s c) = members_loop p f s c.
  Proof using Hp. induction f as [|f IH]; intros s c; cbn [members_loop_c members_loop]; [reflexivity|]. erase. Qed.
  #[local] Hint Resolve elems_loop_c_snd members_loop_c_snd : core.
  Lemma parse_array_c_snd s c : snd (parse_array_c pc s c) = parse_array p s c.
  Proof using Hp. unfold parse_array_c, parse_array. erase. Qed.
  Lemma parse_object_c_snd s c : snd (parse_object_c pc s c) = parse_object p s c.
  Proof using Hp. unfold parse_object_c, parse_object. erase. Qed.
End Same.
#[local] Hint Resolve parse_array_c_snd parse_object_c_snd : core.
Lemma parse_value_c_snd lay f : forall s c, snd (parse_value_c lay f s c) = parse_value lay f s c.
Proof. induction f as [|f IH]; intros s c; cbn [parse_value_c parse_value]; [reflexivity|]. erase. Qed.
Lemma parse_c_snd lay s : snd (parse_c lay s) = parse lay s.
Proof. unfold parse_c, parse. cbn [snd]. now rewrite parse_value_c_snd. Qed.

(** ** The counts *)
(** [Q] of the reads and the result, or [E] of the reads if there is none *)
Definition costs {A} (m : counted A) (Q : nat -> A -> Prop) (E : nat -> Prop) : Prop :=
  match snd m with Ret a => Q (fst m) a | _ => E (fst m) end.

Lemma costs_bind {A B} (m : counted A) (f : A -> counted B) (Q1 : nat -> A -> Prop) (E1 : nat -> Prop) (Q : nat -> B -> Prop) (E : nat -> Prop) :
  costs m Q1 E1 -> (forall n, E1 n -> E n) -> (forall n a, Q1 n a -> costs (f a) (fun k => Q (n + k)) (fun k => E (n + k))) -> costs (cbind m f) Q E.
Proof. unfold costs, cbind. intros H HE H2. destruct (snd m) as [a| | | |]; cbn [fst snd]; auto. specialize (H2 _ _ H). destruct (snd (f a)); auto. Qed.
Lemma costs_weak {A} (m : counted A) Q1 E1 (Q : nat -> A -> Prop) (E : nat -> Prop) : costs m Q1 E1 -> (forall n a, Q1 n a -> Q n a) -> (forall n, E1 n -> E n) -> costs m Q E.
Proof. unfold costs. intros H H1 H2. destruct (snd m); auto. Qed.
Lemma costs_free {A} (r : outcome A) (Q : nat -> A -> Prop) (E : nat -> Prop) : (forall a, r = Ret a -> Q 0 a) -> E 0 -> costs (free r) Q E.
Proof. unfold costs, free. intros H HE. cbn. destruct r; auto. Qed.

Lemma advance_len s n s' : advance s n = Ret s' -> length s = n + length s'.
Proof. unfold advance. destruct (Nat.leb_spec n (length s)); [|discriminate]. intros [= <-]. rewrite skipn_length. lia. Qed.

Lemma have_costs c s : costs (have_c c s) (fun n p => n = 1 /\ length s = (if fst p then 1 else 0) + length (snd p)) (fun n => n = 1).
Proof.
  unfold have_c, cbind, read_c, costs. cbn [fst snd]. destruct (read s 0) as [h| | | |]; cbn; auto. destruct (beqb h c); cbn; [|auto].
  destruct (advance s 1) eqn:E; cbn; auto. apply advance_len in E. auto.
Qed.
Lemma have_if_costs p s buf : costs (have_if_c p s buf) (fun n q => let '(b, s', _) := q in n = (if b then 2 else 1) /\ length s = (if b then 1 else 0) + length s') (fun n => n <= 2).
Proof.
  unfold have_if_c, cbind, read_c, costs. cbn [fst snd]. destruct (read s 0) as [h| | | |]; cbn; auto. destruct (p h); cbn; [|auto].
  destruct (advance s 1) eqn:E; cbn; auto. apply advance_len in E. auto.
Qed.

Ltac costs_leaf :=
  lazymatch goal with
  | |- costs (free (Ret _)) _ _ => apply costs_free; [intros ? [= <-]|]; cbn [fst snd] in *; repeat split; auto; try lia
  | |- costs (free _) _ _ => apply costs_free; [intros; try discriminate|]; cbn [fst snd] in *; repeat split; auto; try lia
  end.
(** [step L]: the first call costs what [L] says *)
Tactic Notation "step" uconstr(L) := eapply costs_bind; [apply L|intros; cbn beta in *; cbn [length] in *; lia|cbn beta; intros ? ? ?].

Lemma pat_loop_costs aend apat s pat : forall i, costs (have_pat_loop_c aend apat i pat s) (fun n _ => n <= length pat) (fun n => n <= length pat).
Proof.
  induction pat as [|c pat IH]; intros i; cbn [have_pat_loop_c]; [costs_leaf|]. destruct (_ <=? _)%N; [costs_leaf|].
  eapply (costs_bind _ _ (fun n _ => n = 1) (fun n => n = 1)); [unfold costs, read_c; cbn; destruct (read s i); auto|cbn [length]; intros; lia|]. intros n a ->.
  destruct (beqb c a); [|costs_leaf; cbn [length]; lia]. eapply costs_weak; [apply IH|cbn [length]; intros; lia|cbn [length]; intros; lia].
Qed.
Lemma pat_costs aend apat pat s : costs (have_pat_c aend apat pat s) (fun n p => n <= length pat /\ length (snd p) <= length s) (fun n => n <= length pat).
Proof.
  unfold have_pat_c. step pat_loop_costs. destruct a; [|costs_leaf].
  eapply (costs_bind _ _ (fun n s' => n = 0 /\ length s' <= length s) (fun n => n = 0)); [apply costs_free; [|reflexivity]|intros; lia|].
  - intros s' E. apply advance_len in E. lia.
  - intros k s' [-> Hs]. costs_leaf.
Qed.
Lemma expect_costs c msg s : costs (expect_c c msg s) (fun n s' => n = 1 /\ length s = 1 + length s') (fun n => n <= 1).
Proof. unfold expect_c. step have_costs. destruct a as [[] s']; costs_leaf. Qed.
Lemma expect_pat_costs aend apat pat msg s : costs (expect_pat_c aend apat pat msg s) (fun n s' => n <= length pat /\ length s' <= length s) (fun n => n <= length pat).
Proof. unfold expect_pat_c. step pat_costs. destruct a as [[] s']; costs_leaf. Qed.

Lemma skip_ws_loop_costs f : forall s, costs (skip_ws_loop_c f s) (fun n s' => n + 4 * length s' <= 4 * length s + 4 /\ length s' <= length s) (fun n => n <= 4 * length s + 4).
Proof.
  induction f as [|f IH]; intros s; cbn [skip_ws_loop_c]; [costs_leaf|].
  do 4 (step have_costs; destruct a as [[] ?]; cbn [fst snd] in *; [eapply costs_weak; [apply IH|cbn beta; intros; lia|cbn beta; intros; lia]|]). costs_leaf.
Qed.
Lemma skip_ws_costs s : costs (skip_ws_c s) (fun n s' => n + 4 * length s' <= 4 * length s + 4 /\ length s' <= length s) (fun n => n <= 4 * length s + 4).
Proof. apply skip_ws_loop_costs. Qed.
Lemma digits_costs f : forall s buf, costs (digits_loop_c f s buf) (fun n p => n + 2 * length (fst p) <= 2 * length s + 1 /\ length (fst p) <= length s) (fun n => n <= 2 * length s + 2).
Proof.
  induction f as [|f IH]; intros s buf; cbn [digits_loop_c]; [costs_leaf|]. step have_if_costs. destruct a as [[[] s'] buf']; cbn [fst snd] in *.
  - eapply costs_weak; [apply IH|cbn beta; intros; lia|cbn beta; intros; lia].
  - costs_leaf.
Qed.
Lemma int_part_costs s buf : costs (parse_int_part_c s buf) (fun n q => let '(b, s', _) := q in n + 2 * length s' <= 2 * length s + 1 /\ (if b then 1 else 0) + length s' <= length s) (fun n => n <= 2 * length s + 2).
Proof.
  unfold parse_int_part_c. step have_if_costs. destruct a as [[[] s'] buf']; cbn [fst snd] in *; [|costs_leaf].
  step digits_costs. destruct a as [s2 b2]. costs_leaf.
Qed.
Lemma valid_code_costs m : forall i s, costs (valid_code_loop_c m i s) (fun n _ => n <= 6 * m) (fun n => n <= 6 * m).
Proof.
  induction m as [|m IH]; intros i s; cbn [valid_code_loop_c]; [costs_leaf|].
  eapply (costs_bind _ _ (fun n _ => n = 6) (fun n => n = 6)); [unfold costs; cbn; destruct (read s i); auto|intros; lia|]. intros n a ->.
  destruct (is_hex a); [|costs_leaf]. eapply costs_weak; [apply IH|cbn beta; intros; lia|cbn beta; intros; lia].
Qed.
Lemma codepoint_costs s : costs (parse_codepoint_c s) (fun n p => n <= 28 /\ length s = 4 + length (snd p)) (fun n => n <= 28).
Proof.
  unfold parse_codepoint_c. step valid_code_costs. destruct a; [|costs_leaf].
  eapply (costs_bind _ _ (fun n s' => n = 4 /\ length s = 4 + length s') (fun n => n = 4)); [unfold costs; cbn [fst snd]; destruct (advance s 4) eqn:E; auto; apply advance_len in E; auto|intros; lia|].
  intros k s' [-> Hs]. costs_leaf.
Qed.
Lemma escape_costs s : costs (parse_escape_c s) (fun n p => n <= 37 /\ 1 + length (snd p) <= length s) (fun n => n <= 37).
Proof.
  unfold parse_escape_c. do 8 (step have_costs; destruct a as [[] ?]; cbn [fst snd] in *; [costs_leaf|]). step have_costs. destruct a as [[] ?]; cbn [fst snd] in *; [|costs_leaf].
  eapply costs_weak; [apply codepoint_costs|cbn beta; intros; lia|cbn beta; intros; lia].
Qed.
Lemma string_loop_costs f : forall s str, costs (string_loop_c f s str) (fun n p => n + 20 * length (fst p) <= 20 * length s /\ 1 + length (fst p) <= length s) (fun n => n <= 20 * length s + 40).
Proof.
  induction f as [|f IH]; intros s str; cbn [string_loop_c]; [costs_leaf|]. step have_costs. destruct a as [[] s1]; cbn [fst snd] in *; [costs_leaf|].
  destruct (Nat.eqb_spec (length s1) 0); [costs_leaf|]. step have_costs. destruct a as [[] s2]; cbn [fst snd] in *.
  - step escape_costs. destruct a as [c s3]. cbn [fst snd] in *. eapply costs_weak; [apply IH|cbn beta; intros; lia|cbn beta; intros; lia].
  - eapply (costs_bind _ _ (fun n _ => n = 1) (fun n => n = 1)); [unfold costs, read_c; cbn; destruct (read s2 0); auto|intros; lia|]. intros k c ->.
    eapply (costs_bind _ _ (fun n s' => n = 0 /\ length s2 = 1 + length s') (fun n => n = 0)); [apply costs_free; [|reflexivity]; intros s' E; apply advance_len in E; auto|intros; lia|].
    intros k s' [-> Hs]. eapply costs_weak; [apply IH|cbn beta; intros; lia|cbn beta; intros; lia].
Qed.

(** one alternative of parse_value: [k] reads besides those paid by the characters consumed *)
Definition tried (k e : nat) (s : bytes) (m : counted step_result) : Prop :=
  costs m (fun n q => let '(b, s', _) := q in n + 40 * length s' + (if b then 21 else 0) <= 40 * length s + (if b then 0 else k) /\ (if b then 1 else 0) + length s' <= length s) (fun n => n <= 40 * length s + e).

Tactic Notation "step_free" := eapply (costs_bind _ _ (fun n _ => n = 0) (fun n => n = 0)); [apply costs_free; auto|intros; lia|intros ? ? ->].

Lemma string_costs k s c : tried 5 45 s (parse_string_c k s c).
Proof.
  unfold tried, parse_string_c. step skip_ws_costs. step have_costs. destruct a0 as [[] s1]; cbn [fst snd] in *; [|costs_leaf].
  step string_loop_costs. destruct a0 as [s2 str]. cbn [fst snd] in *. step_free. costs_leaf.
Qed.
Lemma boolean_costs lay s c : tried 6 10 s (parse_boolean_c lay s c).
Proof.
  unfold tried, parse_boolean_c. step skip_ws_costs. step have_costs. destruct a0 as [[] s1]; cbn [fst snd] in *.
  - step expect_pat_costs. cbn [length] in *. step_free. costs_leaf.
  - step have_costs. destruct a0 as [[] s2]; cbn [fst snd] in *; [|costs_leaf]. step expect_pat_costs. cbn [length] in *. step_free. costs_leaf.
Qed.
Lemma number_costs s c : tried 7 10 s (parse_number_c s c).
Proof.
  unfold tried, parse_number_c. step skip_ws_costs.
  assert (R : forall (st : bool) (s1 str : bytes) (n0 : nat), n0 = (if st then 2 else 1) /\ length a = (if st then 1 else 0) + length s1 ->
    costs ('(zero, s, str) <~ have_if_c (fun h => beqb h x30) s1 str ;;
           '(ok, s, str) <~ (if zero then free (Ret (true, s, str)) else parse_int_part_c s str) ;;
           if ok then c <~ free (on_number c str) ;; free (Ret (true, s, c))
           else if st then free (Throw (ParserError no_digits)) else free (Ret (false, s, c)))
      (fun k q => let '(b, s', _) := q in n + (n0 + k) + 40 * length s' + (if b then 21 else 0) <= 40 * length s + (if b then 0 else 7) /\ (if b then 1 else 0) + length s' <= length s)
      (fun k => n + (n0 + k) <= 40 * length s + 10)).
  { intros st s1 str n0 [Hn0 Hs1]. assert (B : n0 <= 2 /\ length s1 <= length a) by (destruct st; lia). step have_if_costs. destruct a0 as [[z s2] str2].
    assert (B2 : n1 <= 2 /\ length s2 <= length s1) by (destruct z; lia).
    eapply (costs_bind _ _ (fun n (q : bool * bytes * bytes) => let '(b, s', _) := q in n + 2 * length s' <= 2 * length s2 + (if z then 0 else 1) /\ (if b then if z then 0 else 1 else 0) + length s' <= length s2 /\ (b = false -> z = false)) (fun n => n <= 2 * length s2 + 2)).
    - destruct z; [apply costs_free; [intros ? [= <-]; repeat split; try lia; discriminate|lia]|].
      eapply costs_weak; [apply int_part_costs| |auto]. intros k [[b s'] ?] [? ?]. auto.
    - intros; lia.
    - intros k [[ok s3] str3] (H1 & H2 & H3). destruct ok; [step_free; destruct st, z; costs_leaf|]. rewrite H3 in * by reflexivity. destruct st; costs_leaf. }
  step have_if_costs. destruct a0 as [[st s1] str]. apply R; auto.
Qed.
Section Containers.
  Variable pv : bytes -> cbs -> counted (bytes * cbs).
  Hypothesis Hpv : forall s c, costs (pv s c) (fun n p => n + 40 * length (fst p) <= 40 * length s /\ 1 + length (fst p) <= length s) (fun n => n <= 40 * length s + 75).

  Lemma elems_costs f : forall s c, costs (elems_loop_c pv f s c) (fun n p => n + 40 * length (fst p) <= 40 * length s + 5 /\ 1 + length (fst p) <= length s) (fun n => n <= 40 * length s + 75).
  Proof using Hpv.
    induction f as [|f IH]; intros s c; cbn [elems_loop_c]; [costs_leaf|]. step Hpv. destruct a as [s1 c1]. cbn [fst snd] in *. step skip_ws_costs. step have_costs.
    destruct a0 as [[] s2]; cbn [fst snd] in *; [|costs_leaf]. eapply costs_weak; [apply IH|cbn beta; intros; lia|cbn beta; intros; lia].
  Qed.
  Lemma array_costs s c : tried 5 50 s (parse_array_c pv s c).
  Proof using Hpv.
    unfold tried, parse_array_c. step skip_ws_costs. step have_costs. destruct a0 as [[] s1]; cbn [fst snd] in *; [|costs_leaf]. cbv zeta. step skip_ws_costs. step have_costs.
    destruct a1 as [[] s2]; cbn [fst snd] in *; [step_free; costs_leaf|]. step elems_costs. destruct a1 as [s3 c3]. cbn [fst snd] in *. step expect_costs. step_free. costs_leaf.
  Qed.
  Lemma members_costs f : forall s c, costs (members_loop_c pv f s c) (fun n p => n + 40 * length (fst p) <= 40 * length s + 5 /\ 1 + length (fst p) <= length s) (fun n => n <= 40 * length s + 75).
  Proof using Hpv.
    induction f as [|f IH]; intros s c; cbn [members_loop_c]; [costs_leaf|]. step string_costs. destruct a as [[[] s1] c1]; cbn [fst snd] in *; [|costs_leaf].
    step skip_ws_costs. step expect_costs. step Hpv. destruct a1 as [s2 c2]. cbn [fst snd] in *. step skip_ws_costs. step have_costs.
    destruct a2 as [[] s3]; cbn [fst snd] in *; [|costs_leaf]. eapply costs_weak; [apply IH|cbn beta; intros; lia|cbn beta; intros; lia].
  Qed.
  Lemma object_costs s c : tried 5 50 s (parse_object_c pv s c).
  Proof using Hpv.
    unfold tried, parse_object_c. step skip_ws_costs. step have_costs. destruct a0 as [[] s1]; cbn [fst snd] in *; [|costs_leaf]. cbv zeta. step skip_ws_costs. step have_costs.
    destruct a1 as [[] s2]; cbn [fst snd] in *; [step_free; costs_leaf|]. step members_costs. destruct a1 as [s3 c3]. cbn [fst snd] in *. step expect_costs. step_free. costs_leaf.
  Qed.
End Containers.

Lemma value_costs lay f : forall s c, costs (parse_value_c lay f s c) (fun n p => n + 40 * length (fst p) <= 40 * length s /\ 1 + length (fst p) <= length s) (fun n => n <= 40 * length s + 75).
Proof.
  induction f as [|f IH]; intros s c; cbn [parse_value_c]; [costs_leaf|].
  step (object_costs _ IH). destruct a as [[[] s1] c1]; cbn [fst snd] in *; [costs_leaf|].
  step (array_costs _ IH). destruct a as [[[] s2] c2]; cbn [fst snd] in *; [costs_leaf|].
  step string_costs. destruct a as [[[] s3] c3]; cbn [fst snd] in *; [costs_leaf|].
  step boolean_costs. destruct a as [[[] s4] c4]; cbn [fst snd] in *; [costs_leaf|].
  step number_costs. destruct a as [[[] s5] c5]; cbn [fst snd] in *; costs_leaf.
Qed.
Lemma parse_costs lay s : fst (parse_c lay s) <= 40 * length s + 75.
Proof.
  unfold parse_c. cbn [fst]. pose proof (value_costs lay (S (length s)) s (mkC [] JUndef)) as H. unfold costs in H. destruct (snd _); lia.
Qed.
