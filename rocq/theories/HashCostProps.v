(** Property C83: what keeping the hash table sparse costs. *)
From Verif Require Import Base HashSpec HashModel HashAllocSpec HashCostModel HashCostProof.
From Coq Require Import List NArith Bool Lia.
Import ListNotations.
Local Open Scope N_scope.

(** The claim, that there is a constant [a] such that no history makes the table move more than [a] entries per call. *)
Definition constant_moves {K V} (keqb : K -> K -> bool) (hash : K -> N) (dflt : V) (size a : N) : Prop :=
  forall l t answers c, N.of_nat (length l) <= 2^28 -> Forall plain l ->
    run_c keqb hash dflt (new_table size) l = Ret (t, answers, c) -> c <= a * N.of_nat (length l).

(** What holds of it: any history that adds [n] keys (and looks up, erases, overwrites, clears as it likes) moves at most
    19 + n / 49000 entries per added key.  Missing: a bound that does not grow with [n]. *)
Theorem C83_moves_partial :
  forall (K V : Type) (keqb : K -> K -> bool) (hash : K -> N) (dflt : V),
    (forall a b, reflect (a = b) (keqb a b)) ->
    forall size (l : list (op K V)) m answers,
      size < 2^28 -> N.of_nat (length l) <= 2^28 -> Forall plain l -> spec_run keqb dflt [] l = Some (m, answers) ->
      exists t c, run_c keqb hash dflt (new_table size) l = Ret (t, answers, c) /\
        run keqb hash dflt (new_table size) l = Ret (t, answers) /\
        let n := N.of_nat (additions keqb dflt [] l) in c <= (19 + n / 49000) * n.
Proof.
  intros K V keqb hash dflt H size l m answers Hs Hl HP HS.
  destruct (moves_upper keqb hash dflt H size l m answers Hs Hl HP HS) as (t & c & HR & HC). exists t, c. split; [exact HR|].
  split; [|exact HC]. rewrite <- run_same, HR. reflexivity.
Qed.
Print Assumptions C83_moves_partial.

(** Adding [n] different keys to a small table moves at least n * n / 280000 entries, whatever the hash function: beyond
    196613 buckets the table grows by a constant. *)
Theorem C83_moves_quadratic :
  forall (K V : Type) (keqb : K -> K -> bool) (hash : K -> N) (dflt : V),
    (forall a b, reflect (a = b) (keqb a b)) ->
    forall size (keys : list K), size <= 16 -> NoDup keys -> 14 <= N.of_nat (length keys) <= 2^28 ->
      exists t answers c, run_c keqb hash dflt (new_table size) (map OpInsert keys) = Ret (t, answers, c) /\
        N.of_nat (length keys) * N.of_nat (length keys) <= 280000 * c.
Proof. intros K V keqb hash dflt H size keys. exact (moves_lower keqb hash dflt H size keys). Qed.
Print Assumptions C83_moves_quadratic.

(** So no constant up to 900 will do, for any hash function. *)
Theorem C83_moves_refuted :
  forall (hash : N -> N) size a, size <= 16 -> a <= 900 -> ~ constant_moves N.eqb hash 0 size a.
Proof.
  intros hash size a Hs Ha H.
  set (n := N.to_nat (2^28)). assert (En : N.of_nat n = 268435456) by apply N2Nat.id. clearbody n.
  assert (HD : NoDup (map N.of_nat (seq 0 n))).
  { apply FinFun.Injective_map_NoDup; [intros x y; apply Nnat.Nat2N.inj|apply seq_NoDup]. }
  assert (EL : length (map N.of_nat (seq 0 n)) = n) by now rewrite map_length, seq_length.
  destruct (moves_lower N.eqb hash 0 N.eqb_spec size (map N.of_nat (seq 0 n)) Hs HD) as (t & as_ & c & HR & HC).
  { rewrite EL, En. change (2^28) with 268435456. lia. }
  rewrite EL, En in HC.
  assert (HP : Forall plain (map (@OpInsert N N) (map N.of_nat (seq 0 n)))) by (apply Forall_forall; intros o Ho; apply in_map_iff in Ho as (k & <- & _); exact I).
  specialize (H _ _ _ _ ltac:(rewrite map_length, EL, En; discriminate) HP HR).
  rewrite map_length, EL, En in H. clear - HC H Ha. nia.
Qed.
Print Assumptions C83_moves_refuted.

(** 14 keys: the table of 17 buckets has grown, moving 13.  Erasing and adding keys again rehashes at the same size, when
    the unused buckets run out. *)
Example C83_example :
  let moved l := omap snd (run_c N.eqb (fun k => k) 0 (new_table 8) l) in
  moved (map OpInsert [1;2;3;4;5;6;7;8;9;10;11;12;13;14]) = Ret 13 /\
  moved (flat_map (fun k => [OpInsert k; OpErase k]) [1;2;3;4;5;6;7;8;9;10;11;12;13;14;15]) = Ret 1.
Proof. vm_compute. auto. Qed.
