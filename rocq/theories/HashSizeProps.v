(** Property C84: the number of buckets. *)
From Verif Require Import Base HashSpec HashModel HashSizeSpec HashSizeProof.
From Coq Require Import List NArith Bool Lia.
Import ListNotations.
Local Open Scope N_scope.

(** numOfBuckets() is the first size, of those a table made with this size goes through, that the largest number of
    entries so far fills to at most three quarters; a table made without a size has none before its first entry. *)
Theorem C84_buckets :
  forall (K V : Type) (keqb : K -> K -> bool) (hash : K -> N) (dflt : V),
    (forall a b, reflect (a = b) (keqb a b)) ->
    forall size (l : list (op K V)) m answers,
      size < 2^28 -> N.of_nat (length l) <= 2^28 -> Forall plain l -> Forall not_clear l ->
      spec_run keqb dflt [] l = Some (m, answers) ->
      exists t, run keqb hash dflt (new_table size) l = Ret (t, answers) /\
        let n := N.of_nat (length (buckets t)) in
        let p := peak keqb dflt [] l in
        if (size =? 0) && (p =? 0) then n = 0 else needed (first_size size) p n.
Proof. intros K V keqb hash dflt H. exact (size_reached keqb hash dflt H). Qed.
Print Assumptions C84_buckets.

(** there is only one such size: neither the hash function nor the keys nor what was erased matter *)
Theorem C84_only_one : forall b p n n', needed b p n -> needed b p n' -> n = n'.
Proof. exact needed_unique. Qed.
Print Assumptions C84_only_one.

(** clear() of a table with entries gives a table made without a size *)
Theorem C84_clear :
  forall (K V : Type) (keqb : K -> K -> bool) (hash : K -> N) (dflt : V),
    (forall a b, reflect (a = b) (keqb a b)) ->
    forall size (l : list (op K V)) m answers,
      size < 2^28 -> N.of_nat (length l) <= 2^28 -> spec_run keqb dflt [] l = Some (m, answers) -> m <> [] ->
      run keqb hash dflt (new_table size) (l ++ [OpClear]) = Ret (new_table 0, answers ++ [ADone]).
Proof. intros K V keqb hash dflt H. exact (size_cleared keqb hash dflt H). Qed.
Print Assumptions C84_clear.

(** 40 keys added and 30 of them erased again, with hash functions that collide always and never; tables made without a
    size and with 30, and the sizes a new table goes through *)
Definition ex_size_keys (n : nat) : list N := map N.of_nat (seq 0 n).
Definition ex_size_history : list (op N N) := map (fun k => OpSet k k) (ex_size_keys 40) ++ map OpErase (ex_size_keys 30).
Definition ex_size (hash : N -> N) (size : N) (l : list (op N N)) : outcome N :=
  omap (fun r => N.of_nat (length (buckets (fst r)))) (run N.eqb hash 0 (new_table size) l).
Example C84_example :
  Forall plain ex_size_history /\ Forall not_clear ex_size_history /\ peak N.eqb 0 [] ex_size_history = 40 /\
  ex_size (fun _ => 5) 0 ex_size_history = Ret 67 /\ ex_size (fun k => k) 30 ex_size_history = Ret 67 /\
  ex_size (fun k => k) 70 ex_size_history = Ret 97 /\ ex_size (fun k => k) 0 [OpFind 1; OpErase 2] = Ret 0 /\
  needed (first_size 0) 40 67 /\
  map (nth_size (first_size 0)) (seq 0 8) = [17; 37; 67; 97; 197; 419; 977; 2593] /\
  map (nth_size 98317) (seq 0 5) = [98317; 131101; 196613; 327714; 458815].
Proof.
  split; [repeat constructor|]. split; [repeat constructor|].
  do 5 (split; [vm_compute; reflexivity|]). split; [|split; vm_compute; reflexivity].
  exists 2%nat. split; [reflexivity|]. split; [vm_compute; discriminate|]. intros [|[|j]] Hj; try reflexivity. exfalso. lia.
Qed.
