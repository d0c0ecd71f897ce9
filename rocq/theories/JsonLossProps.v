(** Property C71: how much storage parsing a text can lose. *)
From Coq Require Import String.
From Verif Require Import Base JsonModel JsonSpec JsonDenotes ValueSpec ValueModel JsonHeapSpec JsonHeapModel JsonHeapProof4 JsonLossSpec JsonHeapProof5 JsonDepthSpec JsonLossProof EniProps.
From Coq Require Import List NArith ZArith Bool Lia.
From Coq.Init Require Import Byte.
Import ListNotations.
Local Open Scope list_scope.

(** Hypotheses as in JsonHeapProps.v.  The full statement: the objects lost by constructing and destroying a json::Parser
    are at most proportional to the length of the text,

      exists k, forall (every text and state), in_use (s_mem st2) <= in_use (s_mem st) + k * length text

    which is false, see [C71_loss_refuted].  What holds for every text, of the grammar or not, and however the vector grows:
    a text of m bytes loses at most 3/2 m^2 + m objects. *)
Theorem C71_loss_partial :
  forall grows lay text n objs prog e log, short_text text -> 7 + 2 * length text <= n -> arun (env0 n) prog = Some (e, log) ->
    (forall x, x <> v_args -> x <> v_rets -> is_alive (e_alive e) x = false) ->
    exists st c ok st2, run (state0 n objs) prog = Ret (st, log) /\ parser_make grows lay text st = (c, Ret ok) /\ parser_drop c = Ret st2 /\
      2 * in_use (s_mem st2) <= 2 * in_use (s_mem st) + length text * (3 * length text + 2).
Proof.
  intros grows lay text n objs prog e log _ Hn Hr Hf. destruct (parse_ok grows lay text n objs prog e log Hn Hr Hf) as (st & c & ok & st2 & H1 & H2 & H3 & _ & _ & _ & _ & _ & _ & _ & H & _).
  exists st, c, ok, st2. repeat (split; [assumption|]). exact H.
Qed.
Print Assumptions C71_loss_partial.

(** Arrays in arrays lose that much, up to a factor: [d + 1] of them, a text of [2 * (d + 1)] bytes, lose at least
    [3 * d * (d + 1) / 2 + d] objects, in any state and however the vector grows.  So no factor [k] will do. *)
Theorem C71_loss_refuted :
  (forall d, short_text (nest (S d)) /\ length (nest (S d)) = 2 * S d) /\
  (forall grows lay d n objs prog e log, 7 + 2 * length (nest (S d)) <= n -> arun (env0 n) prog = Some (e, log) ->
    (forall x, x <> v_args -> x <> v_rets -> is_alive (e_alive e) x = false) ->
    exists st c st2, run (state0 n objs) prog = Ret (st, log) /\ parser_make grows lay (nest (S d)) st = (c, Ret true) /\ parser_drop c = Ret st2 /\
      2 * in_use (s_mem st) + 3 * d * S d + 2 * d <= 2 * in_use (s_mem st2)) /\
  (forall k, exists text, short_text text /\
    forall grows lay n objs prog e log, 7 + 2 * length text <= n -> arun (env0 n) prog = Some (e, log) ->
    (forall x, x <> v_args -> x <> v_rets -> is_alive (e_alive e) x = false) ->
    exists st c st2, run (state0 n objs) prog = Ret (st, log) /\ parser_make grows lay text st = (c, Ret true) /\ parser_drop c = Ret st2 /\
      in_use (s_mem st) + k * length text < in_use (s_mem st2)).
Proof.
  assert (HL : forall d, length (nest (S d)) = 2 * S d) by (intros d; unfold nest; rewrite app_length, !repeat_length; lia).
  assert (HA : forall grows lay d n objs prog e log, 7 + 2 * length (nest (S d)) <= n -> arun (env0 n) prog = Some (e, log) ->
    (forall x, x <> v_args -> x <> v_rets -> is_alive (e_alive e) x = false) ->
    exists st c st2, run (state0 n objs) prog = Ret (st, log) /\ parser_make grows lay (nest (S d)) st = (c, Ret true) /\ parser_drop c = Ret st2 /\
      2 * in_use (s_mem st) + 3 * d * S d + 2 * d <= 2 * in_use (s_mem st2)).
  { intros grows lay d n objs prog e log Hn Hr Hf. destruct (parse_ok grows lay (nest (S d)) n objs prog e log Hn Hr Hf) as (st & c & ok & st2 & H1 & H2 & H3 & H4 & _ & _ & _ & _ & _ & _ & _ & H).
    pose proof (tower_grammar (readable lay) d) as Hg. assert (ok = true) as -> by (apply H4; eauto). exists st, c, st2. repeat (split; [assumption|]).
    specialize (H _ _ Hg). unfold parser_loss in H. rewrite made_own, kept_waste, tower_waste in H. pose proof (tower_own d). lia. }
  split; [intros d; split; [apply nest_short|apply HL]|]. split; [exact HA|].
  intros k. exists (nest (S (S (2 * k)))). split; [apply nest_short|]. intros grows lay n objs prog e log Hn Hr Hf.
  destruct (HA grows lay (S (2 * k)) n objs prog e log Hn Hr Hf) as (st & c & st2 & H1 & H2 & H3 & H). exists st, c, st2. repeat (split; [assumption|]). rewrite HL. nia.
Qed.
Print Assumptions C71_loss_refuted.

(** Twelve bytes, six arrays, lose 50 objects; the bound of [C71_loss_partial] is 228.  A text that is cut off loses storage
    too, more if the vector moves its elements. *)
Definition lost (grows : nat -> bool) (text : bytes) : outcome (bool * nat) :=
  let (c, r) := parser_make grows (mkL 1000 10 20) text (state0 (7 + 2 * length text) []) in
  ok <- r ;; st <- parser_drop c ;; Ret (ok, in_use (s_mem st)).
Example C71_six : lost (fun _ => false) (nest 6) = Ret (true, 50) /\
  lost (fun _ => false) (T "[[1,[2,[3,[") = Ret (false, 6) /\ lost (fun _ => true) (T "[[1,[2,[3,[") = Ret (false, 12).
Proof. split; [vm_compute; reflexivity|]. split; vm_compute; reflexivity. Qed.
