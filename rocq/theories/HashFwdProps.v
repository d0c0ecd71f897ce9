(** Property C94: the entry iterators of HashTables are forward iterators. *)
From Verif Require Import Base HashSpec HashModel HashFwdSpec HashFwdModel HashFwdProof.
From Coq Require Import List NArith Bool Permutation Lia.
Import ListNotations.

(** [h] is a construction with a number of buckets, followed by calls within their contract; as finite
    maps these calls lead to [m] *)
Definition leads_to {K V} (keqb : K -> K -> bool) (dflt : V) (h : N * list (op K V)) (m : fmap K V) : Prop :=
  (fst h < 2^28 /\ N.of_nat (length (snd h)) <= 2^28)%N /\
  exists answers, spec_run keqb dflt [] (snd h) = Some (m, answers).

(** the code builds table [t] that way *)
Definition built_by {K V} (keqb : K -> K -> bool) (hash : K -> N) (dflt : V)
    (h : N * list (op K V)) (t : table (K * V)) : Prop :=
  exists answers, run keqb hash dflt (new_table (fst h)) (snd h) = Ret (t, answers).

(** the loop from begin() to end() over [t] visits [es] *)
Definition visits {K V} (t : table (K * V)) (es : list (K * V)) : Prop :=
  forall fuel, length es <= fuel -> traverse fuel t = Ret es.

(** ** C94: iterators are places in a fixed sequence of the entries *)

(** Any number of tables with any histories, any number of iterator variables, any program of iterator
    calls: there is for each table one order of its entries such that every call answers as if an
    iterator were a place in that order.  At the end the tables hold what was written through the
    iterators, in the same order. *)
Theorem C94_forward_iterators :
  forall (K V : Type) (keqb : K -> K -> bool) (hash : K -> N),
    (forall a b, reflect (a = b) (keqb a b)) ->
    forall (dflt : V) (hs : list (N * list (op K V))) (ms : list (fmap K V)),
      Forall2 (leads_to keqb dflt) hs ms ->
      exists ts ess,
        Forall2 (built_by keqb hash dflt) hs ts /\
        Forall2 (@Permutation (K * V)) ms ess /\ Forall2 visits ts ess /\
        forall n prog ess' places answers,
          fspec_run keqb (ess, repeat None n) prog = Some ((ess', places), answers) ->
          exists ts' its,
            frun keqb hash (ts, repeat null_it n) prog = Ret ((ts', its), answers) /\
            Forall2 visits ts' ess'.
Proof. intros K V keqb hash H dflt hs ms. exact (iterators keqb hash H dflt hs ms). Qed.
Print Assumptions C94_forward_iterators.

(** Two tables; colliding keys and an erased one in the first.  The program runs through the first table,
    writes through a found iterator, uses the old value of it++, compares iterators of the two tables
    and both ends, and uses an end. *)
Definition c94_a : N * list (op N N) :=
  (3%N, [OpSet 5 50; OpSet 22 220; OpSet 7 70; OpErase 22; OpSet 39 390]%N).
Definition c94_b : N * list (op N N) := (3%N, [OpSet 1 11]%N).
Definition c94_prog : list (fop N N) :=
  [FBegin 0 0; FGet 0; FPost 1 0; FGet 1; FGet 0; FEq 0 1; FCopy 1 0; FEq 0 1; FInc 0; FGet 0; FInc 0;
   FEnd 2 1; FEq 0 2; FGet 0; FInc 0; FFind 3 0 39; FSet 3 391; FEq 3 1; FFind 2 1 1; FNe 3 2; FInc 2;
   FEq 2 0; FFind 2 0 22; FEq 2 0; FBegin 1 0; FInc 1; FGet 1; FSet 0 1; FPost 3 0; FGet 3]%N.
Definition c94_ts : list (table (N * N)) :=
  match run N.eqb (fun k => k) 0%N (new_table (fst c94_a)) (snd c94_a),
        run N.eqb (fun k => k) 0%N (new_table (fst c94_b)) (snd c94_b) with
  | Ret (a, _), Ret (b, _) => [a; b]
  | _, _ => []
  end.

Example C94_example :
  Forall2 (leads_to N.eqb 0%N) [c94_a; c94_b] [[(39, 390); (7, 70); (5, 50)]%N; [(1, 11)]%N] /\
  match frun N.eqb (fun k => k) (c94_ts, repeat null_it 4) c94_prog,
        fspec_run N.eqb ([[(5, 50); (39, 390); (7, 70)]; [(1, 11)]]%N, repeat None 4) c94_prog with
  | Ret ((ts', _), rs), Some ((ess', _), rs') =>
      rs = rs' /\
      rs = [FDone; FEntry 5 50; FDone; FEntry 5 50; FEntry 39 390; FBool false; FDone; FBool true; FDone;
            FEntry 7 70; FDone; FDone; FBool true; FThrown; FThrown; FDone; FDone; FBool true; FDone;
            FBool true; FDone; FBool true; FDone; FBool true; FDone; FDone; FEntry 39 391; FThrown; FThrown;
            FEntry 39 391]%N /\
      map (traverse 3) ts' = map Ret ess'
  | _, _ => False
  end.
Proof.
  split.
  - repeat (apply Forall2_cons; [split; [split; vm_compute; congruence|eexists; vm_compute; reflexivity]|]).
    apply Forall2_nil.
  - vm_compute. auto.
Qed.
