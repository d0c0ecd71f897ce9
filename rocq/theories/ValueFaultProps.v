(** Property C100: json::Value when memory runs out. *)
From Coq Require Import String.
From Verif Require Import Base ValueSpec ValueModel ValueFaultSpec ValueFaultModel ValueProof4 ValueProof6 ValueFaultProof ValueFaultProof2 EniProps.
From Coq Require Import List NArith ZArith Bool Lia.
Import ListNotations.
Local Open Scope list_scope.

(** A program decides what to do from what it has seen, and catches every exception.  Whatever requests for memory are
    refused, it sees each operation take effect or throw std::bad_alloc and change nothing; there is no undefined
    behaviour, and after any number of operations every variable alive has its content.

    Missing: the operations that are not [tolerant], see [C100_spoilt_refuted]; erasing a member; programs outside C51. *)
Theorem C100_out_of_memory_partial :
  forall alloc n objs next, careful next n -> forall k,
    exists s c e evs, run_a alloc next k (state0 n objs) 0 [] = Ret (s, c, evs) /\ reach next n e evs /\ shows e (content s).
Proof.
  intros alloc n objs next H k. destruct (run_careful alloc next n H k (state0 n objs) 0 (env0 n) [] (inv0 n objs) (reach_start _ _)) as (s & c & e & evs & E & Hm & Hi). exists s, c, e, evs. split; [exact E|]. split; [exact Hm|]. exact (inv_shows _ _ Hi).
Qed.
Print Assumptions C100_out_of_memory_partial.

(** In particular a list of tolerant operations can be tried again and again: after any number of attempts the variables
    are what the operations that succeeded make of them. *)
Theorem C100_retry_partial :
  forall alloc n objs prog, tolerant_all (env0 n) prog = true -> forall k,
    exists s c e evs log, run_a alloc (retry prog) k (state0 n objs) 0 [] = Ret (s, c, evs) /\
      arun (env0 n) (firstn (length (filter granted evs)) prog) = Some (e, log) /\ filter granted evs = events log /\ shows e (content s).
Proof.
  intros alloc n objs prog H k. destruct (C100_out_of_memory_partial alloc n objs (retry prog) (retry_careful _ _ H) k) as (s & c & e & evs & E & Hr & Hs).
  destruct (retry_reach _ _ _ _ Hr) as (k' & log & -> & E1 & E2). exists s, c, e, evs, log. auto.
Qed.
Print Assumptions C100_retry_partial.

(** If no request is refused, every program of C51 does what it does there. *)
Theorem C100_enough_memory :
  forall alloc, (forall c, alloc c = true) -> forall n objs prog e log, arun (env0 n) prog = Some (e, log) ->
    exists s c, run_a alloc (script prog) (length prog) (state0 n objs) 0 [] = Ret (s, c, events log) /\ shows e (content s).
Proof.
  intros alloc Ha n objs prog e log H. destruct (run_sim prog _ _ _ _ (inv0 n objs) H) as (s & E & Hi). destruct (run_yes alloc Ha prog [] _ 0 [] _ _ eq_refl E) as (c & E').
  exists s, c. split; [exact E'|exact (inv_shows _ _ Hi)].
Qed.
Print Assumptions C100_enough_memory.

(** [tolerant] leaves out nothing: at any point of any program of C51, every other operation that has a meaning, except
    erase, has a request whose refusal is undefined behaviour, or is reported with std::bad_alloc and some variable
    no longer has its content (or cannot be read). *)
Theorem C100_spoilt_refuted :
  forall n objs prog e log o e', arun (env0 n) prog = Some (e, log) -> astep e o = Some (e', None) -> tolerant e o = false -> (forall p k, o <> Erase p k) ->
    exists s, run (state0 n objs) prog = Ret (s, log) /\ shows e (content s) /\ forall c, exists alloc,
      (exists u, step_a alloc s c o = UB u) \/ exists s' c', step_a alloc s c o = Ret (s', c', true) /\ ~ shows e (content s').
Proof.
  intros n objs prog e log o e' H Ho Ht Hn. destruct (run_sim prog _ _ _ _ (inv0 n objs) H) as (s & E & Hi). exists s. split; [exact E|]. split.
  - exact (inv_shows _ _ Hi).
  - intros c. exact (step_spoilt s e c o e' Hi Ho Ht Hn).
Qed.
Print Assumptions C100_spoilt_refuted.

(** What comes of it.  A failed assignment of a string to an array: both the array and its destruction are undefined.
    To a value moved from: two values have the same string, and it is deleted twice.  A failed push_back leaves an
    element that is garbage; a failed pop_back loses the element. *)
Theorem C100_later_refuted :
  (let prog := [New 0 CArr; New 1 (CStr (T "b")); Assign (0, []) (1, [])] in
   exists s c, run_a (refuse 3) (script prog) 9 (state0 2 []) 0 [] = Ret (s, c, [Done; Done; NoMemory]) /\ content s 0 = UB TypeConfusion /\ step_op s (Destroy 0) = UB TypeConfusion) /\
  (let prog := [New 0 (CStr (T "a")); Move 1 (0, []); New 2 (CStr (T "b")); Assign (0, []) (2, [])] in
   exists s c, run_a (refuse 2) (script prog) 9 (state0 3 []) 0 [] = Ret (s, c, [Done; Done; Done; NoMemory]) /\ content s 0 = Ret (TStr (T "a")) /\ content s 1 = Ret (TStr (T "a")) /\
     run s [Destroy 0; Destroy 1] = UB DeadObject) /\
  (let prog := [New 0 CArr; New 1 (CStr (T "b")); Push (0, []) (1, [])] in
   exists s c, run_a (refuse 4) (script prog) 9 (state0 2 []) 0 [] = Ret (s, c, [Done; Done; NoMemory]) /\ content s 0 = UB Uninitialised) /\
  (let prog := [New 0 CArr; New 1 (CStr (T "b")); Push (0, []) (1, []); Pop 2 (0, [])] in
   exists s c, run_a (refuse 5) (script prog) 9 (state0 3 []) 0 [] = Ret (s, c, [Done; Done; Done; NoMemory]) /\ content s 0 = Ret (TArr [])).
Proof. split; [|split; [|split]]; do 2 eexists; repeat split; reflexivity. Qed.
Print Assumptions C100_later_refuted.

(** a program that is tried again, with every second request refused *)
Definition frugal : list op :=
  [New 0 (CStr (T "one")); New 1 (CInt 7); New 2 CArr; New 3 (CBool true); Copy 4 (0, []); Push (2, []) (3, []); SetStr (0, []) (T "two");
   Assign (1, []) (3, []); Assign (0, []) (4, []); Resize (2, []) 3; Assign (2, [At 5]) (3, []); Destroy 2].
Example C100_retry_case : tolerant_all (env0 5) frugal = true /\
  exists s c, run_a Nat.even (retry frugal) 20 (state0 5 []) 0 [] =
    Ret (s, c, [Done; NoMemory; Done; NoMemory; Done; Done; Done; NoMemory; Done; NoMemory; Done; Done; NoMemory; Done; NoMemory; Done; Thrown OutOfRangeVector; Done]).
Proof. split; [reflexivity|]. do 2 eexists. reflexivity. Qed.
(** one that gives up *)
Definition gives_up (next : program) : program := fun evs => if forallb granted evs then next evs else None.
Example C100_careful_case : careful (gives_up (script [New 0 (CStr (T "one")); Copy 1 (0, [])])) 2.
Proof.
  intros e evs o Hr Hn. assert (G : forall e evs, reach (gives_up (script [New 0 (CStr (T "one")); Copy 1 (0, [])])) 2 e evs ->
    evs = [] /\ e = env0 2 \/ evs = [Done] /\ e = mkEnv [true; false] [TStr (T "one"); TUndef] \/ forallb granted evs = false \/ length evs = 2).
  { clear. induction 1 as [|e evs o e' Hr IH Hn Ho|e evs o e' x Hr IH Hn Ho|e evs o r Hr IH Hn Ho Ha]; auto.
    - destruct IH as [[-> ->]|[[-> ->]|[IH|IH]]]; cbn in Hn; try (unfold gives_up in Hn; rewrite IH in Hn; discriminate).
      + injection Hn as <-. cbn in Ho. injection Ho as <-. right; left. split; reflexivity.
      + right; right; right. reflexivity.
      + unfold gives_up, script in Hn. rewrite IH in Hn. destruct (forallb granted evs); discriminate.
    - destruct IH as [[-> ->]|[[-> ->]|[IH|IH]]]; cbn in Hn; try (unfold gives_up in Hn; rewrite IH in Hn; discriminate).
      + injection Hn as <-. discriminate.
      + injection Hn as <-. discriminate.
      + unfold gives_up, script in Hn. rewrite IH in Hn. destruct (forallb granted evs); discriminate.
    - right; right; left. rewrite forallb_app. cbn. apply andb_false_r. }
  destruct (G _ _ Hr) as [[-> ->]|[[-> ->]|[E|E]]].
  - cbn in Hn. injection Hn as <-. split; [reflexivity|discriminate].
  - cbn in Hn. injection Hn as <-. split; [reflexivity|discriminate].
  - unfold gives_up in Hn. rewrite E in Hn. discriminate.
  - unfold gives_up, script in Hn. rewrite E in Hn. destruct (forallb granted evs); discriminate.
Qed.
Example C100_spoilt_case :
  exists e log e', arun (env0 3) [New 0 CArr; New 1 (CStr (T "b"))] = Some (e, log) /\ astep e (Push (0, []) (1, [])) = Some (e', None) /\ tolerant e (Push (0, []) (1, [])) = false /\
    tolerant e (Copy 2 (1, [])) = true /\ tolerant e (Assign (0, []) (1, [])) = false /\ tolerant e (Assign (1, []) (1, [])) = true.
Proof. do 3 eexists. repeat split; reflexivity. Qed.
