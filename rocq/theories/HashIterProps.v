(** Property C65: changing a HashTable while iterating over it. *)
From Verif Require Import Base HashSpec HashModel HashIterSpec HashIterModel HashProof2 HashIterProof.
From Coq Require Import List NArith Bool Permutation Lia.
Import ListNotations.
Local Open Scope N_scope.

(** ** C65: a loop may erase, look up and overwrite entries *)

(** A table built by any history without rehash(n), any loop body that keeps to [quiet] calls: the
    loop ends, visits no key twice, visits only pairs the table holds at that moment, leaves no entry
    unvisited, and the table afterwards answers as the finite map the body's calls lead to.  The loop
    needs no more rounds than the table had entries. *)
Theorem C65_change_while_iterating :
  forall (K V : Type) (keqb : K -> K -> bool) (hash : K -> N) (dflt : V),
    (forall a b, reflect (a = b) (keqb a b)) ->
    forall (body : list (K * V) -> list (op K V)) size l m answers,
      size < 2^28 -> N.of_nat (length l) < 2^28 -> Forall plain l ->
      spec_run keqb dflt [] l = Some (m, answers) ->
      obeys keqb dflt body m ->
      exists t t' seen m',
        run keqb hash dflt (new_table size) l = Ret (t, answers) /\
        loop keqb hash dflt body (N.to_nat (card m)) t = Ret (t', seen) /\
        reaches keqb dflt body m seen m' /\ all_seen keqb seen m' /\
        (forall l2 m2 answers2, N.of_nat (length l + length l2) <= 2^28 ->
           spec_run keqb dflt m' l2 = Some (m2, answers2) ->
           exists t2, run keqb hash dflt t' l2 = Ret (t2, answers2)).
Proof. intros K V keqb hash dflt H. exact (loop_reached keqb hash dflt H). Qed.
Print Assumptions C65_change_while_iterating.

(** The usual case: [for (...) if (p(entry)) t.erase(key)] visits every entry exactly once and leaves
    the entries that do not satisfy [p]. *)
Definition erasing {K V} (p : K * V -> bool) (seen : list (K * V)) : list (op K V) :=
  match rev seen with
  | e :: _ => if p e then [OpErase (fst e)] else []
  | [] => []
  end.

Theorem C65_erase_if :
  forall (K V : Type) (keqb : K -> K -> bool) (hash : K -> N) (dflt : V),
    (forall a b, reflect (a = b) (keqb a b)) ->
    forall (p : K * V -> bool) size l m answers,
      size < 2^28 -> N.of_nat (length l) < 2^28 -> Forall plain l ->
      spec_run keqb dflt [] l = Some (m, answers) ->
      exists t t' seen m',
        run keqb hash dflt (new_table size) l = Ret (t, answers) /\
        loop keqb hash dflt (erasing p) (N.to_nat (card m)) t = Ret (t', seen) /\
        Permutation seen m /\ Permutation m' (filter (fun e => negb (p e)) m) /\
        (forall l2 m2 answers2, N.of_nat (length l + length l2) <= 2^28 ->
           spec_run keqb dflt m' l2 = Some (m2, answers2) ->
           exists t2, run keqb hash dflt t' l2 = Ret (t2, answers2)).
Proof.
  intros K V keqb hash dflt H p size l m as_ Hs Hl HF HS.
  destruct (loop_reached keqb hash dflt H (erase_if p) size l m as_ Hs Hl HF HS (erase_if_obeys keqb dflt p m))
    as (t & t' & seen & m' & HR & HW & HX & HY & HZ).
  destruct (erase_if_result keqb dflt H p m seen m') as [P1 P2]; auto.
  - assert (Hl' : N.of_nat (length l) <= 2^28) by lia.
    destruct (run_new_ok keqb hash H dflt size l m as_ Hs Hl' HS) as (t0 & _ & HM). apply HM.
  - exists t, t', seen, m'. auto.
Qed.
Print Assumptions C65_erase_if.

(** 40 keys colliding modulo 7 in a table of 67 buckets; the loop erases the even ones, overwrites
    the others and looks some up *)
Definition it_history : list (op N N) := map (fun k => OpSet k (k * k)) (map N.of_nat (seq 0 40)).
Definition it_body (seen : list (N * N)) : list (op N N) :=
  match rev seen with
  | (k, v) :: _ => if N.even k then [OpErase k; OpRehash] else [OpSet k (v + 1); OpFind 0; OpSize]
  | [] => []
  end.
Example C65_example :
  (t <- omap fst (run N.eqb (fun k => k mod 7) 0 (new_table 1) it_history) ;;
   '(t', seen) <- loop N.eqb (fun k => k mod 7) 0 it_body 40 t ;;
   '(_, answers) <- run N.eqb (fun k => k mod 7) 0 t' [OpSize; OpFind 4; OpFind 5; OpFind 39] ;;
   Ret (length seen, answers)) =
  Ret (40%nat, [ASize 20; AFound None; AFound (Some 26); AFound (Some 1522)]).
Proof. vm_compute. reflexivity. Qed.

(** ** Without the restriction on the body: false *)

(** Inserting a new key in the body: an entry is visited twice and another one not at all. *)
Definition in_history : list (op N N) := [OpSet 3 30; OpSet 17 170].
Definition in_body (seen : list (N * N)) : list (op N N) :=
  match seen with [_] => [OpSet 4 40] | _ => [] end.
Theorem C65_insert_while_iterating_refuted :
  exists (size : N) (l : list (op N N)) (body : list (N * N) -> list (op N N)) t t' seen answers m,
    Forall plain l /\ spec_run N.eqb 0 [] l = Some (m, answers) /\
    run N.eqb (fun k => k) 0 (new_table size) l = Ret (t, answers) /\
    loop N.eqb (fun k => k) 0 body 10 t = Ret (t', seen) /\
    ~ NoDup seen /\
    (exists k, get N.eqb m k <> None /\ ~ In k (map fst seen) /\
       omap snd (run N.eqb (fun k => k) 0 t' [OpFind k]) = Ret [AFound (get N.eqb m k)]).
Proof.
  exists 1, in_history, in_body.
  eexists _, _, [(3, 30); (3, 30); (4, 40)], _, _.
  split; [repeat constructor|]. split; [vm_compute; reflexivity|]. split; [vm_compute; reflexivity|].
  split; [vm_compute; reflexivity|]. split.
  - intros HN. inversion HN as [|? ? Hni _]. apply Hni. cbn. auto.
  - exists 17. split; [vm_compute; discriminate|]. split; [vm_compute; intros H; repeat (destruct H as [H|H]; try discriminate); auto|].
    vm_compute. reflexivity.
Qed.
Print Assumptions C65_insert_while_iterating_refuted.

(** clear() in the body: the next step of the iterator uses a null pointer, in every non-empty table. *)
Theorem C65_clear_while_iterating_refuted :
  forall (K V : Type) (keqb : K -> K -> bool) (hash : K -> N) (dflt : V),
    (forall a b, reflect (a = b) (keqb a b)) ->
    forall size l m answers rounds,
      size < 2^28 -> N.of_nat (length l) <= 2^28 ->
      spec_run keqb dflt [] l = Some (m, answers) -> 0 < card m ->
      exists t, run keqb hash dflt (new_table size) l = Ret (t, answers) /\
        loop keqb hash dflt (fun _ => [OpClear]) (S rounds) t = UB NullDeref.
Proof. intros K V keqb hash dflt H. exact (fun size l m as_ f => loop_clear keqb hash dflt H size l m as_ f). Qed.
Print Assumptions C65_clear_while_iterating_refuted.

(** Erasing in the body of a loop over a table that was packed by rehash(n) before: erase moves the
    entries, an entry is visited twice and another one not at all. *)
Definition pk_history : list (op N N) :=
  map (fun k => OpSet k (10 * k)) [8; 18; 19; 3; 5; 34; 17; 1; 2] ++ [OpRehashTo 10].
Definition pk_body (seen : list (N * N)) : list (op N N) :=
  match seen with [_; (k, _)] => [OpErase k] | _ => [] end.
Theorem C65_erase_after_rehash_n_refuted :
  exists (size : N) (l : list (op N N)) (body : list (N * N) -> list (op N N)) t t' seen answers m,
    spec_run N.eqb 0 [] l = Some (m, answers) /\ obeys N.eqb 0 body m /\
    run N.eqb (fun k => k) 0 (new_table size) l = Ret (t, answers) /\
    loop N.eqb (fun k => k) 0 body 10 t = Ret (t', seen) /\
    ~ NoDup seen /\
    (exists k, get N.eqb m k <> None /\ ~ In k (map fst seen) /\
       omap snd (run N.eqb (fun k => k) 0 t' [OpFind k]) = Ret [AFound (get N.eqb m k)]).
Proof.
  exists 1, pk_history, pk_body.
  eexists _, _, (map (fun k => (k, 10 * k)) [8; 1; 2; 3; 18; 5; 19; 8]), _, _.
  split; [vm_compute; reflexivity|]. split.
  { intros seen m1 e _ _. unfold pk_body. destruct (seen ++ [e]) as [|? [|[] []]]; cbn; auto. }
  split; [vm_compute; reflexivity|]. split; [vm_compute; reflexivity|]. split.
  - intros HN. inversion HN as [|? ? Hni _]. apply Hni. cbn. auto 10.
  - exists 34. split; [vm_compute; discriminate|]. split; [vm_compute; intros H; repeat (destruct H as [H|H]; try discriminate); auto|].
    vm_compute. reflexivity.
Qed.
Print Assumptions C65_erase_after_rehash_n_refuted.
