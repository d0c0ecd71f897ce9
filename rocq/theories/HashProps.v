(** Properties C14-C22 and C61: the hash table and StringMap. *)
From Verif Require Import Base HashSpec HashModel HashHeapSpec HashHeapModel StringMapSpec StringMapModel HasherModel.
From Verif Require Import HashProof HashProof2 HashProof5 HashProof6 HashHeapProof StringMapProof StringMapProof2.
From Coq Require Import List NArith Bool Permutation Lia.
Import ListNotations.
Local Open Scope N_scope.

(** ** C14: a HashTable is a finite map *)

(** Entries by value: for every history inside the contract of [spec_step] the answers are those of
    the finite map. *)
Theorem C14_finite_map :
  forall (K V : Type) (keqb : K -> K -> bool) (hash : K -> N) (dflt : V),
    (forall a b, reflect (a = b) (keqb a b)) ->
    forall size l m answers,
      size < 2^28 -> N.of_nat (length l) <= 2^28 ->
      spec_run keqb dflt [] l = Some (m, answers) ->
      exists t, run keqb hash dflt (new_table size) l = Ret (t, answers).
Proof.
  intros K V keqb hash dflt H size l m as_ Hs Hl Hr.
  destruct (run_new_ok keqb hash H dflt size l m as_ Hs Hl Hr) as (t & HR & _). eauto.
Qed.
Print Assumptions C14_finite_map.

(** Entries behind pointers, several tables, copies, moves, writes through pointers: a history runs
    as specified up to the first operation that has no meaning in the specification. *)
Theorem C14_finite_map_pointers :
  forall (K V : Type) (keqb : K -> K -> bool) (hash : K -> N) (dflt : V) (k0 : K),
    (forall a b, reflect (a = b) (keqb a b)) ->
    forall l, N.of_nat (length l) <= 2^28 ->
      exists l1 l2 s answers w,
        l = l1 ++ l2 /\
        hrun keqb hash dflt k0 state0 l1 = Ret (s, answers) /\
        wexec keqb dflt world0 l1 answers w /\
        match l2 with [] => True | o :: _ => ~ enabled keqb dflt w o end.
Proof.
  intros K V keqb hash dflt k0 H l Hl.
  destruct (hrun_ok keqb hash H dflt k0 l state0 world0 0 (R0 hash dflt k0) Hl) as (l1 & l2 & s & as_ & w & E & H1 & H2 & _ & H4).
  exists l1, l2, s, as_, w. auto.
Qed.
Print Assumptions C14_finite_map_pointers.

(** 40 keys in a table that starts with 3 buckets, with deletions, all colliding modulo 7 *)
Definition ex_keys (n : nat) : list N := map N.of_nat (seq 0 n).
Definition ex_history : list (op N N) :=
  map (fun k => OpSet k (k * k)) (ex_keys 40) ++ map (fun k => OpErase (2 * k)) (ex_keys 15) ++
  [OpFind 31; OpFind 4; OpSize; OpRehash; OpInsert 5; OpInsert 100; OpRehashTo 60; OpFind 33].
Example C14_example :
  omap snd (run N.eqb (fun k => k mod 7) 0 (new_table 1) ex_history) =
  Ret (repeat (ASet false) 40 ++ repeat (AErased true) 15 ++
       [AFound (Some 961); AFound None; ASize 25; ADone; AInserted true 25; AInserted false 0; ADone; AFound (Some 1089)])
  /\ spec_run N.eqb 0 [] ex_history <> None.
Proof. split; [vm_compute; reflexivity|vm_compute; discriminate]. Qed.

Definition ex_world : list (wop N N) :=
  [WNew 1; WInsert 0 5; WWrite 0 50; WInsert 0 6; WWrite 1 60; WCopy 0; WWrite 0 51; WFind 1 5; WErase 0 6; WFind 1 6; WRead 0].
Example C14_example_pointers :
  omap snd (hrun N.eqb (fun k => k) 0 0 state0 ex_world) =
  Ret [RDone; RInsert false 0; RDone; RInsert false 1; RDone; RDone; RDone; RFind (Some 3%nat); RErase true; RFind (Some 2%nat); REntry 5 51].
Proof. vm_compute. reflexivity. Qed.

(** ** C15: probes terminate and stay inside the bucket array *)
Theorem C15_probes_terminate :
  forall (K V : Type) (keqb : K -> K -> bool) (hash : K -> N) (dflt : V),
    (forall a b, reflect (a = b) (keqb a b)) ->
    forall size (l : list (op K V)),
      size < 2^28 -> N.of_nat (length l) <= 2^28 -> Forall plain l ->
      exists t answers,
        run keqb hash dflt (new_table size) l = Ret (t, answers) /\
        (forall bs, tbl t = Some bs -> exists b, In b bs /\ bslot b = Empty) /\
        (forall k, count fst keqb hash t k <> Diverge /\ count fst keqb hash t k <> UB OutOfBounds).
Proof. intros K V keqb hash dflt H. exact (probes_end keqb hash dflt H). Qed.
Print Assumptions C15_probes_terminate.

(** 20 keys of one hash, half of them erased again; an absent key of that hash *)
Definition ex_collide : list (op N N) := map (fun k => OpSet k k) (ex_keys 20) ++ map (fun k => OpErase (2 * k)) (ex_keys 10).
Example C15_example :
  Forall plain ex_collide /\
  omap snd (run N.eqb (fun _ => 5) 0 (new_table 1) (ex_collide ++ [OpFind 4; OpFind 19; OpInsert 4; OpErase 40]))
  = Ret (repeat (ASet false) 20 ++ repeat (AErased true) 10 ++ [AFound None; AFound (Some 19); AInserted false 0; AErased false]).
Proof. split; [cbn; repeat constructor|vm_compute; reflexivity]. Qed.

(** ** C16: load factor *)
Theorem C16_load_bounded :
  forall (K V : Type) (keqb : K -> K -> bool) (hash : K -> N) (dflt : V),
    (forall a b, reflect (a = b) (keqb a b)) ->
    forall size (l : list (op K V)),
      size < 2^28 -> N.of_nat (length l) <= 2^28 -> Forall plain l ->
      exists t answers,
        run keqb hash dflt (new_table size) l = Ret (t, answers) /\
        4 * occupied t <= 3 * N.of_nat (length (buckets t)) /\
        N.of_nat (length (buckets t)) <= 8 * never_used t.
Proof. intros K V keqb hash dflt H. exact (load_bounded keqb hash dflt H). Qed.
Print Assumptions C16_load_bounded.

Example C16_example :
  omap (fun r => (occupied (fst r), N.of_nat (length (buckets (fst r))), never_used (fst r)))
    (run N.eqb (fun k => k mod 7) 0 (new_table 1)
       (map (fun k => OpSet k (k * k)) (ex_keys 40) ++ map (fun k => OpErase (2 * k)) (ex_keys 15)))
  = Ret (25, 67, 27).
Proof. vm_compute. reflexivity. Qed.

(** ** C17: rehashing keeps entries and pointers *)

(** A pointer returned by insert designates the entry of its key, with the value last written through
    it, after any operations that do not erase the key, clear, overwrite or move the table away;
    these include insertions, erasures of other keys and rehash calls. *)
Theorem C17_pointers_stay_valid :
  forall (K V : Type) (keqb : K -> K -> bool) (hash : K -> N) (dflt : V) (k0 : K),
    (forall a b, reflect (a = b) (keqb a b)) ->
    forall l, N.of_nat (length l) < 2^28 ->
      exists l1 l2 s answers w,
        l = l1 ++ l2 /\
        hrun keqb hash dflt k0 state0 l1 = Ret (s, answers) /\
        wexec keqb dflt world0 l1 answers w /\
        match l2 with [] => True | o :: _ => ~ enabled keqb dflt w o end /\
        (forall la i k lb aa ex p ab,
           l1 = la ++ WInsert i k :: lb -> answers = aa ++ RInsert ex p :: ab -> length aa = length la ->
           Forall (fun o => ~ ends i k o) lb ->
           exists v, (ex = false -> v = dflt) /\
             hstep keqb hash dflt k0 s (WRead p) = Ret (s, REntry k (last_write p lb v)) /\
             hstep keqb hash dflt k0 s (WFind i k) = Ret (s, RFind (Some p))).
Proof. intros K V keqb hash dflt k0 H. exact (pointers_stay keqb hash dflt k0 H). Qed.
Print Assumptions C17_pointers_stay_valid.

(** rehash() and rehash(n) change no binding. *)
Theorem C17_rehash_keeps_bindings :
  forall (K V : Type) (keqb : K -> K -> bool) (hash : K -> N) (dflt : V),
    (forall a b, reflect (a = b) (keqb a b)) ->
    forall size l m answers r,
      size < 2^28 -> N.of_nat (length l) + 2 <= 2^28 ->
      spec_run keqb dflt [] l = Some (m, answers) ->
      r = OpRehash \/ (exists n, r = OpRehashTo n /\ card m < n < 2^28) ->
      forall k, exists t,
        run keqb hash dflt (new_table size) (l ++ [r; OpFind k]) = Ret (t, answers ++ [ADone; AFound (get keqb m k)]).
Proof.
  intros K V keqb hash dflt H size l m as_ r Hs Hl Hr Hcase k.
  apply (C14_finite_map K V keqb hash dflt H size _ m); auto.
  - rewrite app_length. cbn [length]. lia.
  - rewrite (spec_run_app keqb dflt l [r; OpFind k] [] m as_ Hr). destruct Hcase as [->|(n & -> & Hn1 & Hn2)]; cbn [spec_run spec_step]; auto.
    apply N.ltb_lt in Hn1, Hn2. rewrite Hn1, Hn2. reflexivity.
Qed.
Print Assumptions C17_rehash_keeps_bindings.

(** the first entry is read through its pointer after the table has grown, an erasure and rehash calls *)
Example C17_example :
  omap snd (hrun N.eqb (fun k => k mod 7) 0 0 state0
    ([WNew 1; WInsert 0 5; WWrite 0 50] ++ map (WInsert 0) (ex_keys 30) ++ [WErase 0 7; WRehash 0; WRehashTo 0 40; WWrite 0 51; WRead 0; WFind 0 5]))
  = Ret ([RDone; RInsert false 0; RDone] ++ map (RInsert false) (seq 1 5) ++ [RInsert true 0] ++ map (RInsert false) (seq 6 24) ++
         [RErase true; RDone; RDone; RDone; REntry 5 51; RFind (Some 0%nat)]).
Proof. vm_compute. reflexivity. Qed.

(** ** C18: rehash(n) for every n: false *)

(** What goes wrong, for every non-empty table: n = 0 divides by zero, 0 < n < size() never returns,
    and after n = size() the lookup of an absent key never returns. *)
Theorem C18_rehash_small_refuted :
  forall (K V : Type) (keqb : K -> K -> bool) (hash : K -> N) (dflt : V),
    (forall a b, reflect (a = b) (keqb a b)) ->
    forall size l m answers,
      size < 2^28 -> N.of_nat (length l) <= 2^28 ->
      spec_run keqb dflt [] l = Some (m, answers) -> 0 < card m ->
      exists t, run keqb hash dflt (new_table size) l = Ret (t, answers) /\
        rehash_to t 0 = UB DivByZero /\
        (forall n, 0 < n < card m -> rehash_to t n = Diverge) /\
        (forall k, get keqb m k = None ->
           exists t', rehash_to t (card m) = Ret t' /\ find_entry fst keqb hash t' k = Diverge).
Proof. intros K V keqb hash dflt H. exact (rehash_bad keqb hash dflt H). Qed.
Print Assumptions C18_rehash_small_refuted.

(** witness in the form "exists" *)
Theorem C18_rehash_any_refuted :
  exists (l : list (op N N)) t answers n,
    run N.eqb (fun k => k) 0 (new_table 8) l = Ret (t, answers) /\ rehash_to t n = Diverge.
Proof.
  destruct (rehash_bad N.eqb (fun k => k) 0 N.eqb_spec 8 [OpSet 1 1; OpSet 2 2] [(2, 2); (1, 1)] [ASet false; ASet false])
    as (t & H1 & _ & H2 & _); try reflexivity; [discriminate|].
  exists [OpSet 1 1; OpSet 2 2], t, [ASet false; ASet false], 1. split; [exact H1|]. apply H2. split; reflexivity.
Qed.
Print Assumptions C18_rehash_any_refuted.

(** What holds: n larger than the number of entries. *)
Theorem C18_rehash_partial :
  forall (K V : Type) (keqb : K -> K -> bool) (hash : K -> N) (dflt : V),
    (forall a b, reflect (a = b) (keqb a b)) ->
    forall size l m answers n,
      size < 2^28 -> N.of_nat (length l) + 2 <= 2^28 ->
      spec_run keqb dflt [] l = Some (m, answers) -> card m < n < 2^28 ->
      forall k, exists t,
        run keqb hash dflt (new_table size) (l ++ [OpRehashTo n; OpFind k])
        = Ret (t, answers ++ [ADone; AFound (get keqb m k)]).
Proof. intros. eapply C17_rehash_keeps_bindings; eauto. Qed.
Print Assumptions C18_rehash_partial.

(** three entries: rehash(4) is the smallest that is safe *)
Example C18_example :
  let l := [OpSet 1 10; OpSet 8 80; OpSet 15 150] in
  (exists m answers, spec_run N.eqb 0 [] l = Some (m, answers) /\ card m = 3) /\
  omap snd (run N.eqb (fun k => k mod 7) 0 (new_table 8) (l ++ [OpRehashTo 4; OpFind 15; OpFind 22])) =
  Ret [ASet false; ASet false; ASet false; ADone; AFound (Some 150); AFound None].
Proof. split; [do 2 eexists; split; reflexivity|vm_compute; reflexivity]. Qed.

(** ** C19: iteration *)
Theorem C19_iteration_exactly_once :
  forall (K V : Type) (keqb : K -> K -> bool) (hash : K -> N) (dflt : V),
    (forall a b, reflect (a = b) (keqb a b)) ->
    forall size l m answers,
      size < 2^28 -> N.of_nat (length l) <= 2^28 ->
      spec_run keqb dflt [] l = Some (m, answers) ->
      exists t es,
        run keqb hash dflt (new_table size) l = Ret (t, answers) /\
        traverse (N.to_nat (card m)) t = Ret es /\     (* size() steps are enough *)
        Permutation es m /\ NoDup (map fst es) /\
        (forall n, (n < N.to_nat (card m))%nat -> traverse n t = Diverge).  (* fewer are not *)
Proof. intros K V keqb hash dflt H. exact (iteration keqb hash dflt H). Qed.
Print Assumptions C19_iteration_exactly_once.

Example C19_example :
  bind (run N.eqb (fun k => k mod 7) 0 (new_table 1) [OpSet 3 30; OpSet 10 1; OpSet 8 80; OpErase 3; OpSet 9 90])
    (fun r => traverse 3 (fst r)) = Ret [(8, 80); (9, 90); (10, 1)].
Proof. vm_compute. reflexivity. Qed.

(** ** C20: count: false in three ways, exact otherwise *)
Theorem C20_count_refuted :
  exists (hash : N -> N) (l l' : list (op N N)) t t' answers answers',
    run N.eqb hash 0 (new_table 8) l = Ret (t, answers) /\
    run N.eqb hash 0 (new_table 8) l' = Ret (t', answers') /\
    count fst N.eqb hash t 1 = Ret 2 /\           (* 2 for one entry *)
    count fst N.eqb hash t 7 = UB NullDeref /\    (* absent key with hash 0 *)
    count fst N.eqb hash t' 1 = UB DivByZero.     (* cleared table *)
Proof.
  exists (fun k => if k =? 7 then 0 else 5), [OpSet 1 1; OpSet 2 2], [OpSet 1 1; OpClear]. do 4 eexists.
  split; [vm_compute; reflexivity|]. split; [vm_compute; reflexivity|]. vm_compute. auto.
Qed.
Print Assumptions C20_count_refuted.

(** The exact value of count(k) in a non-empty table: the number of entries with the same 32-bit hash
    as [k] if k is present; 0 if [k] is absent and its hash is not 0. *)
Theorem C20_count_partial :
  forall (K V : Type) (keqb : K -> K -> bool) (hash : K -> N) (dflt : V),
    (forall a b, reflect (a = b) (keqb a b)) ->
    forall size l m answers,
      size < 2^28 -> N.of_nat (length l) <= 2^28 ->
      spec_run keqb dflt [] l = Some (m, answers) ->
      exists t, run keqb hash dflt (new_table size) l = Ret (t, answers) /\
        forall k,
          (0 < card m -> has keqb m k = true ->
             count fst keqb hash t k
             = Ret (N.of_nat (length (filter (fun e => u32 (hash (fst e)) =? u32 (hash k)) m)))) /\
          (0 < card m -> has keqb m k = false -> u32 (hash k) <> 0 -> count fst keqb hash t k = Ret 0) /\
          (has keqb m k = false -> u32 (hash k) = 0 ->
             count fst keqb hash t k = UB NullDeref \/ count fst keqb hash t k = UB DivByZero).
Proof. intros K V keqb hash dflt H. exact (count_reached keqb hash dflt H). Qed.
Print Assumptions C20_count_partial.

(** 1 and 8 share a hash, 3 does not; 4 is absent, and so is 7, whose hash is 0 *)
Example C20_example :
  bind (run N.eqb (fun k => k mod 7) 0 (new_table 8) [OpSet 1 10; OpSet 8 80; OpSet 3 30])
    (fun r => Ret (map (count fst N.eqb (fun k => k mod 7) (fst r)) [1; 8; 3; 4; 7]))
  = Ret [Ret 2; Ret 2; Ret 1; Ret 0; UB NullDeref].
Proof. vm_compute. reflexivity. Qed.

(** ** C21: copies *)

(** Copies and assignments between tables that own buckets: equal contents, and each side keeps its
    contents as long as no operation works on that side.  Missing: sources without buckets and
    self-assignment, see the refutation. *)
Theorem C21_copies_partial :
  forall (K V : Type) (keqb : K -> K -> bool) (hash : K -> N) (dflt : V) (k0 : K),
    (forall a b, reflect (a = b) (keqb a b)) ->
    forall l, N.of_nat (length l) <= 2^28 ->
      exists l1 l2 s answers w,
        l = l1 ++ l2 /\
        hrun keqb hash dflt k0 state0 l1 = Ret (s, answers) /\
        wexec keqb dflt world0 l1 answers w /\
        match l2 with [] => True | o :: _ => ~ enabled keqb dflt w o end /\
        (forall la o lb, l1 = la ++ o :: lb ->
           exists w1 w2 as1 a as2,
             wexec keqb dflt world0 la as1 w1 /\ wstep keqb dflt w1 o a w2 /\ wexec keqb dflt w2 lb as2 w /\
             match o with
             | WCopy i =>
                 let c := length (tabs w1) in
                 contents_eq keqb w2 c w1 i /\ contents_eq keqb w2 i w1 i /\
                 (Forall (leaves keqb w2 c) lb -> contents_eq keqb w c w1 i) /\
                 (Forall (leaves keqb w2 i) lb -> contents_eq keqb w i w1 i)
             | WAssign i j =>
                 contents_eq keqb w2 i w1 j /\ contents_eq keqb w2 j w1 j /\
                 (Forall (leaves keqb w2 i) lb -> contents_eq keqb w i w1 j) /\
                 (Forall (leaves keqb w2 j) lb -> contents_eq keqb w j w1 j)
             | _ => True
             end).
Proof. intros K V keqb hash dflt k0 H. exact (copies keqb hash dflt k0 H). Qed.
Print Assumptions C21_copies_partial.

Theorem C21_copies_refuted :
  (* a copy of a cleared table: looking any key up divides by zero *)
  (exists s answers,
     hrun N.eqb (fun k => k) 0 0 state0 [WNew 8; WInsert 0 1; WClear 0; WCopy 0] = Ret (s, answers) /\
     forall k, hstep N.eqb (fun k => k) 0 0 s (WFind 1 k) = UB DivByZero) /\
  (* t = t loses the entries *)
  (exists s answers,
     hrun N.eqb (fun k => k) 0 0 state0 [WNew 8; WInsert 0 1; WAssign 0 0; WSize 0] = Ret (s, answers) /\
     nth_error answers 3 = Some (RSize 0)).
Proof. split; do 2 eexists; (split; [vm_compute; reflexivity|]); [intros k|]; reflexivity. Qed.
Print Assumptions C21_copies_refuted.

(** a copy keeps its entries while the original is changed through a pointer, erased from and assigned to *)
Example C21_example :
  omap snd (hrun N.eqb (fun k => k) 0 0 state0
    [WNew 8; WInsert 0 1; WWrite 0 10; WInsert 0 2; WCopy 0; WFind 1 1; WWrite 0 11; WErase 0 2; WNew 8; WAssign 0 2; WSize 0; WSize 1; WRead 2; WFind 1 2])
  = Ret [RDone; RInsert false 0; RDone; RInsert false 1; RDone; RFind (Some 2%nat); RDone; RErase true; RDone; RDone; RSize 0; RSize 2; REntry 1 10; RFind (Some 3%nat)].
Proof. vm_compute. reflexivity. Qed.

(** ** C22: StringMap *)
Theorem C22_string_map_partial :
  forall (V : Type) (dflt : V) size (l : list (mop V)),
    size < 2^28 -> N.of_nat (length l) <= 2^28 ->
    (forall o k, In o l -> mop_key o = Some k -> N.of_nat (length k) < 65536) ->
    exists t, sm_run dflt (sm_new size) l = Ret (t, snd (map_run dflt [] l)).
Proof.
  intros V dflt size l Hs Hl Hk. destruct (models_new (V := V) hash_SDBM size Hs) as [M0 N0].
  destruct (sm_run_ok dflt l (sm_new size) [] M0) as (t & H & _).
  - unfold sm_new. rewrite N0. auto.
  - apply Forall_forall. intros o Ho. unfold short. specialize (Hk o). destruct (mop_key o); auto.
  - eauto.
Qed.
Print Assumptions C22_string_map_partial.

(** For every history with any keys, a key of 65536 bytes or more is never found, whatever was stored
    under it. *)
Theorem C22_string_map_refuted :
  forall (V : Type) (dflt v : V) size (l : list (mop V)) k,
    size < 2^28 -> N.of_nat (length l) < 2^28 -> 65536 <= N.of_nat (length k) ->
    exists t answers,
      sm_run dflt (sm_new size) (l ++ [MSet k v]) = Ret (t, answers) /\
      sm_at t k = Throw OutOfRangeKey /\ sm_find t k = Ret None.
Proof.
  intros V dflt v size l k Hs Hl Hk. destruct (sm_new_any (V := V) size Hs) as (H1 & H2 & H3).
  destruct (sm_run_any dflt (l ++ [MSet k v]) (sm_new size) H1 H2) as (t & as_ & HR & HC & HK & _).
  - rewrite H3, app_length. cbn [length]. lia.
  - exists t, as_. split; auto. destruct (long_never_found t k HC HK Hk) as (A & B & _). auto.
Qed.
Print Assumptions C22_string_map_refuted.

From Coq.Init Require Import Byte.
Example C22_example :
  omap snd (sm_run 0 (sm_new 8) [MSet [x61; x00; x62] 7; MAt [x61]; MRead [x61]; MAt [x61]; MAt [x61; x00; x62]; MErase [x61]; MSize])
  = Ret [MUnit; MThrown; MVal 0; MVal 0; MVal 7; MBool true; MNum 1].
Proof. vm_compute. reflexivity. Qed.

(** the hypothesis of C22_string_map_refuted is met *)
Example C22_example_long : 65536 <= N.of_nat (length (repeat x61 (N.to_nat 65536))).
Proof. rewrite repeat_length, N2Nat.id. apply N.le_refl. Qed.

(** ** C61: copies of a StringMap *)

(** After any history, a copy (made by the copy constructor or by the move constructor, which copies)
    answers every further history like the finite map the original stands for, and so does the original.
    Missing: maps made with size 0, keys of 65536 bytes or more. *)
Theorem C61_copies_partial :
  forall (V : Type) (dflt : V) size (h h' : list (mop V)) t answers,
    0 < size < 2^28 -> N.of_nat (length (h ++ h')) <= 2^28 ->
    (forall o k, In o (h ++ h') -> mop_key o = Some k -> N.of_nat (length k) < 65536) ->
    sm_run dflt (sm_new size) h = Ret (t, answers) ->
    forall u, In u [t; sm_copy t; sm_move t] ->
      exists u', sm_run dflt u h' = Ret (u', snd (map_run dflt (fst (map_run dflt [] h)) h')).
Proof.
  intros V dflt size h h' t answers Hs Hl Hk Hr u Hu.
  destruct (sm_copy_ok dflt size h h' t answers Hs Hk Hl Hr) as (H1 & H2 & H3).
  destruct Hu as [<-|[<-|[<-|[]]]]; rewrite ?H1, ?H2; exact H3.
Qed.
Print Assumptions C61_copies_partial.

(** A map made with size 0 works, a copy of it divides by zero at the first access to a key. *)
Theorem C61_copies_refuted :
  forall (V : Type) (dflt v : V) k, N.of_nat (length k) < 65536 ->
    (exists t, sm_run dflt (sm_new 0) [MSet k v; MAt k] = Ret (t, [MUnit; MVal v])) /\
    sm_run dflt (sm_copy (sm_new 0)) [MSet k v] = UB DivByZero /\
    sm_run dflt (sm_copy (sm_new 0)) [MFind k] = UB DivByZero.
Proof.
  intros V dflt v k Hk. split; [|split; reflexivity].
  destruct (C22_string_map_partial V dflt 0 [MSet k v; MAt k]) as (t & H).
  - reflexivity.
  - discriminate.
  - intros o k' [<-|[<-|[]]] E; cbn in E; injection E as <-; exact Hk.
  - exists t. rewrite H. cbn [map_run map_step put del get fst snd]. destruct (bytes_eqb_spec k k); [reflexivity|congruence].
Qed.
Print Assumptions C61_copies_refuted.

Example C61_example :
  (t <- sm_run 0 (sm_new 8) [MSet [x61] 7; MSet [x62] 8; MErase [x61]] ;;
   omap snd (sm_run 0 (sm_copy (fst t)) [MAt [x61]; MAt [x62]; MSize])) = Ret [MThrown; MVal 8; MNum 1].
Proof. vm_compute. reflexivity. Qed.
