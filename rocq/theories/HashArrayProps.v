(** Property C97: hash tables give their bucket arrays back. *)
From Verif Require Import Base HashSpec HashModel HashHeapSpec HashHeapModel HashStorageSpec HashArraySpec HashArrayModel.
From Verif Require Import HashArrayProof.
From Coq Require Import List NArith Bool Permutation.
Import ListNotations.
Local Open Scope N_scope.

(** Exact account, for every history up to the first call without a meaning.  No array is freed
    twice; the arrays allocated and not freed are those the tables have plus those of tables that
    another table was moved into; after the destructors of all tables, in any order, exactly the
    latter are left, and of the entries exactly those dropped by assignments (C66).  The answers are
    those of the model without arrays. *)
Theorem C97_arrays_exact :
  forall (K V : Type) (keqb : K -> K -> bool) (hash : K -> N) (dflt : V) (k0 : K),
    (forall a b, reflect (a = b) (keqb a b)) ->
    forall l, N.of_nat (length l) + N.of_nat (length l) <= 2^28 ->
      exists l1 l2 s answers w arrays_lost entries_lost,
        l = l1 ++ l2 /\
        arun keqb hash dflt k0 astate0 l1 = Ret (s, answers) /\
        hrun keqb hash dflt k0 state0 l1 = Ret (base s, answers) /\
        aloss keqb dflt world0 l1 answers w arrays_lost entries_lost /\
        match l2 with [] => True | o :: _ => ~ enabled keqb dflt w o end /\
        live_arrays s = arrays_owned w + arrays_lost /\
        live_entries (base s) = owned w + entries_lost /\
        forall order, Permutation order (seq 0 (length (tabs w))) ->
          exists s', adestroy s order = Ret s' /\
            live_arrays s' = arrays_lost /\ live_entries (base s') = entries_lost.
Proof. intros K V keqb hash dflt k0 H. exact (arrays keqb hash dflt k0 H). Qed.
Print Assumptions C97_arrays_exact.

(** Histories without move assignment: the destructors give every bucket array back. *)
Theorem C97_arrays_partial :
  forall (K V : Type) (keqb : K -> K -> bool) (hash : K -> N) (dflt : V) (k0 : K),
    (forall a b, reflect (a = b) (keqb a b)) ->
    forall l, N.of_nat (length l) + N.of_nat (length l) <= 2^28 -> Forall (fun o => ~ move_assigns o) l ->
      exists l1 l2 s answers w,
        l = l1 ++ l2 /\
        arun keqb hash dflt k0 astate0 l1 = Ret (s, answers) /\
        wexec keqb dflt world0 l1 answers w /\
        match l2 with [] => True | o :: _ => ~ enabled keqb dflt w o end /\
        live_arrays s = arrays_owned w /\
        forall order, Permutation order (seq 0 (length (tabs w))) ->
          exists s', adestroy s order = Ret s' /\ live_arrays s' = 0.
Proof. intros K V keqb hash dflt k0 H. exact (no_arrays_lost keqb hash dflt k0 H). Qed.
Print Assumptions C97_arrays_partial.

(** collisions, growth, a shrinking rehash, erasures, a copy, a move, a copy assignment, clear() *)
Definition ar_history : list (wop N N) :=
  [WNew 1] ++ map (fun k => WInsert 0 (N.of_nat k)) (seq 0 10) ++ map (fun k => WErase 0 (N.of_nat k)) (seq 3 5) ++
  [WNew 0; WInsert 0 4; WCopy 0; WMove 2; WRehash 0; WErase 3 8; WInsert 3 100; WInsert 2 1; WRehashTo 3 60; WAssign 0 3;
   WNew 9; WClear 3; WNew 5; WClear 5].

(** Of the 8 arrays allocated 4 are left, those of tables 0, 2, 4 and 5; none after the
    destructors.  6 entries of table 0 are lost by the assignment. *)
Example C97_example :
  omap (fun r => (live_arrays (fst r), length (alive (fst r)), map (fun p : option nat => if p then true else false) (buckets (fst r))))
    (arun N.eqb (fun k : N => k mod 3) 0 0 astate0 ar_history) = Ret (4, 8%nat, [true; false; true; false; true; true]) /\
  bind (arun N.eqb (fun k : N => k mod 3) 0 0 astate0 ar_history)
    (fun r => omap (fun s => (live_arrays s, live_entries (base s))) (adestroy (fst r) [5; 0; 3; 1; 4; 2]%nat)) = Ret (0, 6).
Proof. split; vm_compute; reflexivity. Qed.

(** With move assignment: the bucket array of the table moved into is never given back, even if it
    held no entry. *)
Theorem C97_arrays_refuted :
  exists l : list (wop N N), exists s answers s',
    arun N.eqb (fun k => k) 0 0 astate0 l = Ret (s, answers) /\
    live_entries (base s) = 0 /\
    adestroy s [1; 0]%nat = Ret s' /\ live_arrays s' = 1.
Proof.
  exists [WNew 4; WNew 4; WMoveAssign 0 1]. eexists _, _, _.
  split; [vm_compute; reflexivity|]. split; [vm_compute; reflexivity|]. split; vm_compute; reflexivity.
Qed.
Print Assumptions C97_arrays_refuted.
