(** Property C67: the hash table when memory runs out. *)
From Verif Require Import Base HashSpec HashModel HashAllocSpec HashAllocModel HashAllocProof HashAllocAny.
From Coq Require Import List NArith Bool.
Import ListNotations.
Local Open Scope N_scope.

(** For every pattern of failing allocations: the history gives the answers of the finite map, and
    every allocation made by its calls succeeded, one to three of them per added key; or it runs as
    specified up to a call that adds a key, one of the (up to three) allocations of that call is the
    first to fail, and the call is undefined behaviour.  The result of the allocation made by the
    constructor does not matter. *)
Theorem C67_out_of_memory_exact :
  forall (K V : Type) (keqb : K -> K -> bool) (hash : K -> N) (dflt : V),
    (forall a b, reflect (a = b) (keqb a b)) ->
    forall (alloc : nat -> bool) size (l : list (op K V)),
      size < 2^28 -> N.of_nat (length l) <= 2^28 -> Forall plain l ->
      let '(t0, c0) := a_new alloc 0 size in
      (exists t m answers c,
         a_run keqb hash dflt alloc c0 t0 l = Ret (t, answers, c) /\
         spec_run keqb dflt [] l = Some (m, answers) /\
         granted alloc c0 c /\
         (c0 + additions keqb dflt [] l <= c <= c0 + 3 * additions keqb dflt [] l)%nat)
      \/
      (exists l1 o l2 m1 as1 t1 c1 i,
         l = l1 ++ o :: l2 /\
         spec_run keqb dflt [] l1 = Some (m1, as1) /\
         a_run keqb hash dflt alloc c0 t0 l1 = Ret (t1, as1, c1) /\
         adds keqb m1 o = true /\
         (c1 <= i < c1 + 3)%nat /\ granted alloc c0 i /\ alloc i = false /\
         a_step keqb hash dflt alloc c1 t1 o = UB NullDeref).
Proof. intros K V keqb hash dflt H alloc size l. exact (out_of_memory keqb hash dflt H alloc size l). Qed.
Print Assumptions C67_out_of_memory_exact.

(** What holds of the full claim: in whatever state a history has left the table, a call that adds no
    key makes no allocation and answers as the finite map does, even if memory is exhausted.  Missing:
    calls that add a key. *)
Theorem C67_out_of_memory_partial :
  forall (K V : Type) (keqb : K -> K -> bool) (hash : K -> N) (dflt : V),
    (forall a b, reflect (a = b) (keqb a b)) ->
    forall (alloc : nat -> bool) size (l : list (op K V)) t answers c m o m' a,
      size < 2^28 -> N.of_nat (length l) < 2^28 -> Forall plain l -> plain o ->
      (let '(t0, c0) := a_new alloc 0 size in a_run keqb hash dflt alloc c0 t0 l) = Ret (t, answers, c) ->
      spec_run keqb dflt [] l = Some (m, answers) ->
      adds keqb m o = false -> spec_step keqb dflt m o = Some (m', a) ->
      exists t', a_step keqb hash dflt alloc c t o = Ret (t', a, c).
Proof.
  intros K V keqb hash dflt H alloc size l t as_ c m o m' a Hs Hl HP Hpo HR HS Ha HT.
  exact (proj2 (next_fails keqb hash dflt H alloc size l t as_ c m o Hs Hl HP Hpo HR HS) Ha m' a HT).
Qed.
Print Assumptions C67_out_of_memory_partial.

(** The full claim is false: whenever memory is exhausted, adding a key is undefined behaviour; no
    error is reported. *)
Theorem C67_out_of_memory_adding :
  forall (K V : Type) (keqb : K -> K -> bool) (hash : K -> N) (dflt : V),
    (forall a b, reflect (a = b) (keqb a b)) ->
    forall (alloc : nat -> bool) size (l : list (op K V)) t answers c m o,
      size < 2^28 -> N.of_nat (length l) < 2^28 -> Forall plain l -> plain o ->
      (let '(t0, c0) := a_new alloc 0 size in a_run keqb hash dflt alloc c0 t0 l) = Ret (t, answers, c) ->
      spec_run keqb dflt [] l = Some (m, answers) ->
      adds keqb m o = true -> alloc c = false ->
      a_step keqb hash dflt alloc c t o = UB NullDeref.
Proof.
  intros K V keqb hash dflt H alloc size l t as_ c m o Hs Hl HP Hpo HR HS Ha HT.
  exact (proj1 (next_fails keqb hash dflt H alloc size l t as_ c m o Hs Hl HP Hpo HR HS) Ha HT).
Qed.
Print Assumptions C67_out_of_memory_adding.

Theorem C67_out_of_memory_refuted :
  exists (alloc : nat -> bool) (size : N) (l : list (op N N)),
    a_history N.eqb (fun k => k) 0 alloc size l = UB NullDeref.
Proof. exists (fun _ => false), 0, [OpInsert 1]. reflexivity. Qed.
Print Assumptions C67_out_of_memory_refuted.

(** With rehash(n) too: memory that runs out never leads to a wrong answer.  Every history of calls within the contract
    gives the answers of the finite map, or one of its allocations fails and a null pointer is used. *)
Theorem C67_never_wrong :
  forall (K V : Type) (keqb : K -> K -> bool) (hash : K -> N) (dflt : V),
    (forall a b, reflect (a = b) (keqb a b)) ->
    forall (alloc : nat -> bool) size (l : list (op K V)) m answers,
      size < 2^28 -> N.of_nat (length l) <= 2^28 ->
      spec_run keqb dflt [] l = Some (m, answers) ->
      a_history keqb hash dflt alloc size l = Ret answers \/
      ((exists i, (i <= 3 * length l)%nat /\ alloc i = false) /\ a_history keqb hash dflt alloc size l = UB NullDeref).
Proof. intros K V keqb hash dflt H alloc size l m answers. exact (never_wrong keqb hash dflt H alloc size l m answers). Qed.
Print Assumptions C67_never_wrong.

(** rehash(n) of an empty table needs memory; when it fails the table can be used, but not rehashed again *)
Example C67_example_rehash_to :
  let h l := a_history N.eqb (fun k => k mod 3) 0 (fun i => negb (Nat.eqb i 0)) 0 l in
  h [OpRehashTo 5; OpFind 1; OpSet 1 10; OpRehashTo 9; OpFind 1; OpErase 1; OpSize] =
    Ret [ADone; AFound None; ASet false; ADone; AFound (Some 10); AErased true; ASize 0] /\
  h [OpRehashTo 5; OpRehashTo 5] = UB NullDeref.
Proof. vm_compute. auto. Qed.

(** The constructor's allocation (number 0) fails; the table works.  Number 4 is the bucket array of
    the rehash that the 3rd entry of a table with 3 buckets causes. *)
Definition ex_alloc_history : list (op N N) :=
  [OpFind 4; OpErase 4; OpSet 1 10; OpSet 2 20; OpSet 1 11; OpErase 2; OpInsert 1; OpSize; OpClear; OpEmpty].
Example C67_example_constructor :
  a_history N.eqb (fun k => k mod 3) 0 (fun i => negb (Nat.eqb i 0)) 1 ex_alloc_history =
  Ret [AFound None; AErased false; ASet false; ASet false; ASet true; AErased true; AInserted true 11; ASize 1; ADone; AEmpty true].
Proof. vm_compute. reflexivity. Qed.

Example C67_example_rehash :
  a_history N.eqb (fun k => k mod 3) 0 (fun i => Nat.ltb i 4) 1 [OpSet 1 10; OpSet 2 20] = Ret [ASet false; ASet false] /\
  a_history N.eqb (fun k => k mod 3) 0 (fun i => Nat.ltb i 4) 1 [OpSet 1 10; OpSet 2 20; OpSet 3 30] = UB NullDeref /\
  a_history N.eqb (fun k => k mod 3) 0 (fun i => Nat.ltb i 4) 1 [OpSet 1 10; OpSet 2 20; OpSet 1 30; OpFind 1; OpErase 2] =
    Ret [ASet false; ASet false; ASet true; AFound (Some 30); AErased true].
Proof. vm_compute. auto. Qed.
