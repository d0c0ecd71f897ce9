(** Properties C51 and C58: json::Value as a value. *)
From Coq Require Import String.
From Verif Require Import Base ValueSpec ValueModel ValueProof4 ValueProof6 ValueProof7 EniProps.
From Coq Require Import List NArith ZArith Bool Lia.
Import ListNotations.
Local Open Scope list_scope.

(** ** C51: value semantics *)

(** A program makes, copies, moves, assigns, modifies and destroys values and parts of values.  [arun] gives its
    meaning if no two values ever share anything; the memory shows the same: no undefined behaviour, the same
    exceptions, and every variable alive at the end has the content that [arun] says.

    Missing: programs that copy a value into a part of itself, append an element to the array it is in, or use
    delegate(); see [C51_refuted] and [C51_delegate_refuted]. *)
Theorem C51_value_semantics_partial :
  forall n objs prog e log, arun (env0 n) prog = Some (e, log) ->
    exists s, run (state0 n objs) prog = Ret (s, log) /\
      forall x, is_alive (e_alive e) x = true -> exists t, nth_error (e_vars e) x = Some t /\ content s x = Ret t.
Proof.
  intros n objs prog e log H. destruct (run_sim prog _ _ _ _ (inv0 n objs) H) as (s & E & Hi). exists s. split; [exact E|].
  intros x Hx. destruct (env_alive _ _ _ Hi Hx) as (t & H1 & H2). exists t. split; [exact H1|exact (content_ok _ _ _ _ Hi H2)].
Qed.
Print Assumptions C51_value_semantics_partial.

(** In particular a copy keeps its content whatever the program does to anything else, the original included. *)
Theorem C51_copy_kept_partial :
  forall n objs prog1 prog2 e1 log1 e2 log2 x p t,
    arun (env0 n) prog1 = Some (e1, log1) -> eget e1 p = Found t ->
    arun e1 (Copy x p :: prog2) = Some (e2, log2) -> forallb (fun o => negb (changes x o)) prog2 = true ->
    exists s, run (state0 n objs) (prog1 ++ Copy x p :: prog2) = Ret (s, log1 ++ log2) /\ content s x = Ret t.
Proof. exact copy_kept. Qed.
Print Assumptions C51_copy_kept_partial.

Definition key : bytes := T "k".
(** [arun_of true] gives a meaning also to programs that copy a value into itself.  With values [a] and [o]:
    a.asArray().push_back(a), a.asArray().at(0) = a, o.asObject()["k"] = o, a.asArray().push_back(a.asArray().at(0)). *)
Theorem C51_refuted :
  (let prog := [New 0 CArr; Push (0, []) (0, [])] in
   arun_of true (env0 1) prog = Some (mkEnv [true] [TArr [TArr []]], [None; None]) /\ run (state0 1 []) prog = UB Uninitialised) /\
  (let prog := [New 0 CArr; New 1 (CInt 7); Push (0, []) (1, []); Assign (0, [At 0]) (0, [])] in
   arun_of true (env0 2) prog = Some (mkEnv [true; true] [TArr [TArr [TInt 7]]; TInt 7], [None; None; None; None]) /\ run (state0 2 []) prog = UB TypeConfusion) /\
  (let prog := [New 0 CObj; Put (0, []) key (0, [])] in
   arun_of true (env0 1) prog = Some (mkEnv [true] [TObj [(key, TObj [])]], [None; None]) /\ run (state0 1 []) prog = UB NullDeref) /\
  (let prog := [New 0 CArr; New 1 (CInt 7); Push (0, []) (1, []); Push (0, []) (0, [At 0])] in
   arun_of true (env0 2) prog = Some (mkEnv [true; true] [TArr [TInt 7; TInt 7]; TInt 7], [None; None; None; None]) /\ run (state0 2 []) prog = UB DeadObject).
Proof. repeat split; reflexivity. Qed.
Print Assumptions C51_refuted.

(** Delegation shares: two values given the same object [o] of the program, of which one is modified; and the
    destructor deletes the object it was lent. *)
Theorem C51_delegate_refuted :
  (exists s, run (state0 3 [BArr []]) [New 0 CUndef; New 1 CUndef; New 2 (CBool true); Delegate (0, []) 1; Delegate (1, []) 1; Push (0, []) (2, [])] = Ret (s, repeat None 6) /\
     content s 1 = Ret (TArr [TBool true])) /\
  run (state0 1 [BArr []]) [New 0 CUndef; Delegate (0, []) 1; Destroy 0] = UB WrongDealloc.
Proof. split; [eexists; split; reflexivity|reflexivity]. Qed.
Print Assumptions C51_delegate_refuted.

(** a copy of a nested value outlives changes to the original and its destruction *)
Definition sample : list op :=
  [New 0 CObj; New 1 CArr; New 2 (CStr (T "deep")); Push (1, []) (2, []); Put (0, []) key (1, []);
   Copy 3 (0, []);
   SetStr (0, [Member key; At 0]) (T "changed"); Push (0, [Member key]) (0, [Member key; At 0]) ; Destroy 2; Destroy 0].
Definition sample' : list op :=
  [New 0 CObj; New 1 CArr; New 2 (CStr (T "deep")); Push (1, []) (2, []); Put (0, []) key (1, []);
   Copy 3 (0, []);
   SetStr (0, [Member key; At 0]) (T "changed"); Assign (1, [At 5]) (2, []); Assign (0, []) (0, [Member key; At 0]); Move 4 (3, [Member key; At 0]); Destroy 2; Destroy 0].
Example sample_excluded : arun (env0 5) sample = None.
Proof. reflexivity. Qed.
Example sample_meaning : arun (env0 5) sample' =
  Some (mkEnv [false; true; false; true; true] [TUndef; TArr [TStr (T "deep")]; TUndef; TObj [(key, TArr [TUndef])]; TStr (T "deep")],
        [None; None; None; None; None; None; None; Some OutOfRangeVector; None; None; None; None]).
Proof. reflexivity. Qed.
Definition after : list op := [SetStr (0, [Member key; At 0]) (T "changed"); Assign (1, []) (3, [Member key]); Destroy 0].
Example copy_kept_case : exists e1 log1 e2 log2 t,
  arun (env0 5) (firstn 5 sample') = Some (e1, log1) /\ eget e1 (0, []) = Found t /\ t = TObj [(key, TArr [TStr (T "deep")])] /\
  arun e1 (Copy 3 (0, []) :: after) = Some (e2, log2) /\ forallb (fun o => negb (changes 3 o)) after = true.
Proof. do 5 eexists. repeat split; reflexivity. Qed.

(** ** C58: storage *)

(** After any such program a copy is made of any value or part of a value, and destroyed.  The copy takes one object
    for every integer, string, array and object in it; destruction gives all of them back if the value has no integer
    and no array of anything but booleans.

    Missing: every other value, see [C58_storage_refuted]; and what assignment, pop_back, clear and resize let go. *)
Theorem C58_storage_partial :
  forall n objs prog e log x p t, arun (env0 n) prog = Some (e, log) -> eget e p = Found t -> is_fresh e x = true -> plain t = true ->
    exists s s1 s2, run (state0 n objs) prog = Ret (s, log) /\ step_op s (Copy x p) = Ret s1 /\ step_op s1 (Destroy x) = Ret s2 /\
      in_use (s_mem s1) = in_use (s_mem s) + blocks t /\ in_use (s_mem s2) = in_use (s_mem s).
Proof.
  intros n objs prog e log x p t H Hg Hf Hp. destruct (copy_destroy n objs prog e log x p t H Hg Hf) as (s & s1 & s2 & E & E1 & E2 & C1 & C2).
  exists s, s1, s2. repeat (split; [assumption|]). pose proof (proj2 (proj2 (freed_blocks t)) Hp). lia.
Qed.
Print Assumptions C58_storage_partial.

(** every other value loses storage, every time *)
Theorem C58_storage_refuted :
  forall n objs prog e log x p t, arun (env0 n) prog = Some (e, log) -> eget e p = Found t -> is_fresh e x = true -> plain t = false ->
    exists s s1 s2, run (state0 n objs) prog = Ret (s, log) /\ step_op s (Copy x p) = Ret s1 /\ step_op s1 (Destroy x) = Ret s2 /\
      in_use (s_mem s) < in_use (s_mem s2).
Proof.
  intros n objs prog e log x p t H Hg Hf Hp. destruct (copy_destroy n objs prog e log x p t H Hg Hf) as (s & s1 & s2 & E & E1 & E2 & C1 & C2).
  exists s, s1, s2. repeat (split; [assumption|]). destruct (freed_blocks t) as [L I]. assert (freed t <> blocks t) by (intros G; apply I in G; congruence). lia.
Qed.
Print Assumptions C58_storage_refuted.

Example C58_cases :
  plain (TObj [(key, TStr (T "s")); (T "b", TObj [(key, TArr [TBool true])])]) = true /\ plain (TInt 7) = false /\ plain (TArr [TStr (T "s")]) = false /\
  exists e log, arun (env0 2) [New 0 (CInt 7)] = Some (e, log) /\ eget e (0, []) = Found (TInt 7) /\ is_fresh e 1 = true.
Proof. repeat split; try reflexivity. do 2 eexists. repeat split; reflexivity. Qed.

(** an assignment over a string, and popping one, also lose it *)
Theorem C58_assign_refuted :
  exists s, run (state0 3 []) [New 0 (CStr (T "a")); New 1 (CBool true); Assign (0, []) (1, []); Destroy 0; Destroy 1] = Ret (s, repeat None 5) /\ in_use (s_mem s) = 1.
Proof. eexists. split; reflexivity. Qed.
Print Assumptions C58_assign_refuted.
