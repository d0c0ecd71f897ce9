(** Properties C23-C26 and C53: eni::Vector.

    [zero] is the element all of whose bytes are zero, [dflt] is value_type(), [esz] is
    sizeof(value_type).  [calloc_ok] and [realloc_ok] decide which allocations succeed. *)
From Verif Require Import Base VectorSpec VectorModel VectorProof VectorProof2 VectorOwn VectorCost.
From Coq Require Import List NArith Bool Lia.
Import ListNotations.
Local Open Scope N_scope.

(** ** C23: Vector behaves as a sequence *)

(** With memory available, every history of meaningful calls, on any number of vectors, is answered
    exactly as by mathematical sequences.  Missing: arguments that are elements of the vector itself,
    and erase of the last element, of an empty range or up to the end; see the refutations. *)
Theorem C23_sequence_partial :
  forall A (zero dflt : A) esz calloc_ok realloc_ok, 0 < esz ->
    (forall c n, calloc_ok c n = true) -> (forall c n, realloc_ok c n = true) ->
    forall history w answers,
      vspec_run zero dflt esz [] history = Some (w, answers) ->
      no_departure zero dflt esz [] history ->
      exists s, vrun zero dflt esz calloc_ok realloc_ok vstate0 history = Ret (s, answers).
Proof.
  intros A zero dflt esz calloc_ok realloc_ok He Hc Hr h w as_ Hs Hd.
  destruct (vrun_exact zero dflt esz calloc_ok realloc_ok He Hc h Hr vstate0 [] w as_) as (s & Hs' & _); auto; [constructor|eauto].
Qed.
Print Assumptions C23_sequence_partial.

(** Whatever realloc does, the answers are those of sequences where a refused call throws bad_alloc
    and changes nothing; up to the first call that has no meaning or belongs to the missing ones. *)
Theorem C23_any_memory_partial :
  forall A (zero dflt : A) esz calloc_ok realloc_ok, 0 < esz -> (forall c n, calloc_ok c n = true) ->
    forall history, exists before after s answers w,
      history = before ++ after /\
      vrun zero dflt esz calloc_ok realloc_ok vstate0 before = Ret (s, answers) /\
      vexec zero dflt esz [] before answers w /\
      match after with [] => True | o :: _ => vspec zero dflt esz w o = None \/ departs w o = true end.
Proof.
  intros A zero dflt esz calloc_ok realloc_ok He Hc h.
  destruct (vrun_any zero dflt esz calloc_ok realloc_ok He Hc h vstate0 []) as (l1 & l2 & s & as_ & w & H1 & H2 & H3 & _ & H5); [constructor|].
  exists l1, l2, s, as_, w. auto.
Qed.
Print Assumptions C23_any_memory_partial.

Definition yes : nat -> N -> bool := fun _ _ => true.
(** the second reallocation and every later one is refused *)
Definition once : nat -> N -> bool := fun c _ => Nat.leb c 2.

Definition ex_history : list (vop N) :=
  [VList [1; 2; 3]; VPush 0 (Val 4); VInsert 0 1 2 (Val 9); VErase 0 0; VCopy 0; VSet 1 0 7; VPop 0; VSwap 0 1;
   VElems 0; VElems 1; VInsertList 1 5 [0]; VAt 1 4; VResize 1 7; VBack 1; VAssign 0 1; VClear 1; VEmpty 1; VElems 0].

Example C23_example :
  exists w, vspec_run 0 0 4 [] ex_history = Some (w,
     [RObj 0; RUnit; RUnit; RUnit; RObj 1; RUnit; RVal 4; RUnit;
      RList [7; 9; 2; 3; 4]; RList [9; 9; 2; 3]; RThrow OutOfRangeVector; RThrow OutOfRangeVector; RUnit; RVal 0; RUnit; RUnit; RBool true;
      RList [9; 9; 2; 3; 0; 0; 0]])
  /\ no_departure 0 0 4 [] ex_history
  /\ exists s, vrun 0 0 4 yes once vstate0 [VList [1; 2]; VPush 0 (Val 3); VPush 0 (Val 4); VReserve 0 9; VElems 0]
               = Ret (s, [RObj 0; RUnit; RUnit; RThrow BadAllocNoMemory; RList [1; 2; 3; 4]]).
Proof.
  eexists. split; [vm_compute; reflexivity|]. split; [vm_compute; repeat split|]. eexists. vm_compute. reflexivity.
Qed.

(** Wrong answers without any undefined behaviour: insert(0, 1, v[1]) inserts the wrong element, and
    erasing the last element throws. *)
Theorem C23_sequence_refuted :
  exists history w answers s answers',
    vspec_run 0 0 4 [] history = Some (w, answers) /\
    vrun 0 0 4 yes yes vstate0 history = Ret (s, answers') /\ answers' <> answers.
Proof.
  exists [VList [1; 2]; VReserve 0 8; VInsert 0 0 1 (Elem 1); VElems 0]. do 4 eexists.
  split; [vm_compute; reflexivity|]. split; [vm_compute; reflexivity|]. discriminate.
Qed.
Print Assumptions C23_sequence_refuted.

(** The missing calls exactly: in every reached state, an argument that is element [k] of the vector itself acts as a copy
    [a] of it when the new size is within the capacity, and is a dangling reference when it is not; insert takes, of the
    elements at or behind the end of the gap, the one that moved to position [k]. *)
Theorem C23_own_exact :
  forall A (zero dflt : A) esz calloc_ok realloc_ok, 0 < esz ->
    (forall c n, calloc_ok c n = true) -> (forall c n, realloc_ok c n = true) ->
    forall s w i v l k a,
      reached zero dflt esz calloc_ok realloc_ok s w -> nth_error (objs s) i = Some (Some v) -> velems v = Ret l ->
      nth_error l (N.to_nat k) = Some a ->
      let step := vstep zero dflt esz calloc_ok realloc_ok s in
      (fits esz (len l + 1) = true ->
        step (VPush i (Elem k)) = if len l + 1 <=? valloc v then step (VPush i (Val a)) else UB DeadObject) /\
      (forall n, fits esz n = true ->
        step (VResizeWith i n (Elem k)) = (if n <=? valloc v then step (VResizeWith i n (Val a)) else UB DeadObject) /\
        step (VAssignN i n (Elem k)) = (if n <=? valloc v then step (VAssignN i n (Val a)) else UB DeadObject)) /\
      (forall p n b, p <= len l -> 0 < n -> fits esz (len l + n) = true ->
        nth_error l (N.to_nat (if k <? p + n then k else k - n)) = Some b ->
        step (VInsert i p n (Elem k)) = if len l + n <=? valloc v then step (VInsert i p n (Val b)) else UB DeadObject).
Proof.
  intros A zero dflt esz calloc_ok realloc_ok He Hc Hr s w i v l k a H1 H2 H3 H4. 
  exact (own_step zero dflt esz calloc_ok realloc_ok He Hr s w i v l k a H1 Hc H2 H3 H4).
Qed.
Print Assumptions C23_own_exact.

(** a full vector, and room for exactly one more element *)
Example C23_own_example :
  exists s, vrun 0 0 4 yes yes vstate0 [VList [1; 2]; VReserve 0 3; VPush 0 (Elem 1); VElems 0; VReserve 0 4; VInsert 0 0 1 (Elem 2); VElems 0]
    = Ret (s, [RObj 0; RUnit; RUnit; RList [1; 2; 2]; RUnit; RUnit; RList [2; 1; 2; 2]]).
Proof. eexists. vm_compute. reflexivity. Qed.

(** ** C24: memory safety *)

(** In every state reached by meaningful calls without own-element arguments, whatever realloc does:
    size <= capacity <= allocated cells, the cells below size are initialised, and the next such call
    finishes without undefined behaviour in such a state.
    Missing: own-element arguments, a constructor whose calloc fails, and requests of 2^63 bytes or
    more; see the refutation. *)
Theorem C24_memory_partial :
  forall A (zero dflt : A) esz calloc_ok realloc_ok, 0 < esz -> (forall c n, calloc_ok c n = true) ->
    forall s w, reached zero dflt esz calloc_ok realloc_ok s w ->
      (forall i v, nth_error (objs s) i = Some (Some v) ->
        vsize v <= valloc v /\
        match vdata v with Null => valloc v = 0 | Freed => False | Block cs => valloc v <= ncells cs end /\
        exists l, live w i = Some l /\ vsize v = len l /\ velems v = Ret l) /\
      (forall o, vspec zero dflt esz w o <> None -> uses_own o = false ->
        exists s' a, vstep zero dflt esz calloc_ok realloc_ok s o = Ret (s', a) /\
          ((exists w', vspec zero dflt esz w o = Some (w', a) /\ reached zero dflt esz calloc_ok realloc_ok s' w')
           \/ (exists e, a = RThrow e /\ reached zero dflt esz calloc_ok realloc_ok s' w))).
Proof.
  intros A zero dflt esz calloc_ok realloc_ok He Hc s w Hr. split.
  - intros i v. exact (reached_bounds zero dflt esz calloc_ok realloc_ok He Hc s w i v Hr).
  - intros o. exact (reached_step zero dflt esz calloc_ok realloc_ok He Hc s w o Hr).
Qed.
Print Assumptions C24_memory_partial.

Example C24_example :
  let v := mkV (Block [Some 1; Some 2; Some 3; None]) 3 3 in
  reached 0 0 4 yes once (mkS [Some v] 2) [Some [1; 2; 3]].
Proof.
  intros v. pose proof (reached_start 0 0 4 yes once) as H.
  assert (H1 : reached 0 0 4 yes once (mkS [Some (mkV (Block [Some 1; Some 2]) 2 2)] 1) [Some [1; 2]]).
  { apply (reached_ok _ _ _ _ _ _ _ (VList [1; 2]) _ _ (RObj 0) H); reflexivity. }
  assert (H2 : reached 0 0 4 yes once (mkS [Some v] 2) [Some [1; 2; 3]]).
  { apply (reached_ok _ _ _ _ _ _ _ (VPush 0 (Val 3)) _ _ RUnit H1); reflexivity. }
  apply (reached_threw _ _ _ _ _ _ _ (VErase 0 2) _ OutOfRangeVector H2); [reflexivity|discriminate|reflexivity|right; exact I].
Qed.

(** Memory errors: push_back(v[0]) when full, at(0) after a constructor whose calloc failed,
    and a write to an element reserved and assigned when the size in bytes wrapped. *)
Theorem C24_memory_refuted :
  vrun 0 0 4 yes yes vstate0 [VList [1; 2]; VPush 0 (Elem 0)] = UB DeadObject /\
  vrun 0 0 4 (fun _ _ => false) yes vstate0 [VSized 3; VAt 0 0] = UB NullDeref /\
  vrun 0 0 8 yes yes vstate0 [VNew; VReserve 0 (2^60 + 1); VPush 0 (Val 5)] = UB OutOfBounds /\
  vrun 0 0 4 yes yes vstate0 [VList [1; 2]; VInsert 0 1 (2^64 - 1) (Val 0)] = UB OutOfBounds.
Proof. vm_compute. auto. Qed.
Print Assumptions C24_memory_refuted.

(** ** C25: erase *)

(** erase(first, last) removes the range when first < last < size(), and otherwise throws OutOfRange and
    leaves the vector as it was. Missing: last = size(), first = last. *)
Theorem C25_erase_partial :
  forall A (zero dflt : A) esz calloc_ok realloc_ok, 0 < esz -> (forall c n, calloc_ok c n = true) ->
    forall s w i v l f e,
      reached zero dflt esz calloc_ok realloc_ok s w -> nth_error (objs s) i = Some (Some v) -> velems v = Ret l ->
      (f < e -> e < vsize v ->
        exists v' c, erase_range dflt esz realloc_ok v (calls s) f e = Ret (v', c, None) /\ velems v' = Ret (take f l ++ drop e l)) /\
      (e <= f \/ vsize v <= e ->
        erase_range dflt esz realloc_ok v (calls s) f e = Ret (v, calls s, Some OutOfRangeVector)).
Proof.
  intros A zero dflt esz calloc_ok realloc_ok He Hc s w i v l f e. exact (reached_erase zero dflt esz calloc_ok realloc_ok He Hc s w i v l f e).
Qed.
Print Assumptions C25_erase_partial.

(** No vector of any size can lose its last element by erase. *)
Theorem C25_erase_refuted :
  forall A (zero dflt : A) esz calloc_ok realloc_ok, 0 < esz -> (forall c n, calloc_ok c n = true) ->
    forall s w i v,
      reached zero dflt esz calloc_ok realloc_ok s w -> nth_error (objs s) i = Some (Some v) -> 0 < vsize v ->
      erase_at dflt esz realloc_ok v (calls s) (vsize v - 1) = Ret (v, calls s, Some OutOfRangeVector).
Proof.
  intros A zero dflt esz calloc_ok realloc_ok He Hc s w i v Hr Hn Hv. unfold erase_at.
  destruct (R_obj esz s w i v (reached_R zero dflt esz calloc_ok realloc_ok He Hc s w Hr) Hn) as (l & _ & Hs).
  destruct (shape_len esz He v l Hs) as (Hsz & Hla & Ha & _). change (2^63) with 9223372036854775808 in Ha.
  apply erase_throws. right. rewrite u64_small; [lia|]. change (2^64) with 18446744073709551616. lia.
Qed.
Print Assumptions C25_erase_refuted.

Example C25_example :
  exists s, vrun 0 0 4 yes yes vstate0 [VList [1; 2; 3]; VErase 0 2; VErase 0 1; VElems 0; VEraseRange 0 0 2; VEraseRange 0 1 1]
    = Ret (s, [RObj 0; RThrow OutOfRangeVector; RUnit; RList [1; 3]; RThrow OutOfRangeVector; RThrow OutOfRangeVector]).
Proof. eexists. vm_compute. reflexivity. Qed.

(** ** C26: reserve *)

(** For requests below 2^63 bytes: room for [n] elements, or bad_alloc with the vector unchanged; the
    elements stay. Missing: larger requests. *)
Theorem C26_reserve_partial :
  forall A (zero dflt : A) esz calloc_ok realloc_ok, 0 < esz -> (forall c n, calloc_ok c n = true) ->
    forall s w i v n,
      reached zero dflt esz calloc_ok realloc_ok s w -> nth_error (objs s) i = Some (Some v) -> n * esz < 2^63 ->
      exists v' c e, reserve esz realloc_ok v (calls s) n = Ret (v', c, e) /\ velems v' = velems v /\
        ((e = None /\ n <= valloc v' /\ match vdata v' with Null => n = 0 | Freed => False | Block cs => n <= ncells cs end)
         \/ (e = Some BadAllocNoMemory /\ v' = v /\ exists c n, realloc_ok c n = false)).
Proof.
  intros A zero dflt esz calloc_ok realloc_ok He Hc s w i v n Hr Hn Hf.
  apply (reached_reserve zero dflt esz calloc_ok realloc_ok He Hc s w i v n Hr Hn). now apply N.ltb_lt.
Qed.
Print Assumptions C26_reserve_partial.

(** On an empty vector reserve(n) never returns when n > 2^63 (the loop does not end after any number
    of rounds).  With elements of 8 bytes reserve(2^60 + 1) succeeds without a single byte of memory.  On a
    non-empty vector a wrapped size of 0 frees the elements, and the vector keeps pointing to them. *)
Theorem C26_reserve_refuted :
  (forall fuel n, 2^63 < n -> n < 2^64 -> grow fuel 0 n = Diverge) /\
  (forall A esz realloc_ok c n, 2^63 < n -> n < 2^64 -> reserve (A:=A) esz realloc_ok (mkV Null 0 0) c n = Diverge) /\
  reserve (A:=N) 8 yes (mkV Null 0 0) 0 (2^60 + 1) = Ret (mkV (Block []) 0 (2^60 + 1), 1%nat, None) /\
  reserve (A:=N) 8 yes (mkV (Block [Some 7]) 1 1) 0 (2^60 + 1) = Ret (mkV Freed 1 1, 1%nat, Some BadAllocNoMemory).
Proof.
  split; [exact grow_diverges|]. split; [|split; vm_compute; reflexivity].
  intros A esz realloc_ok c n H1 H2. unfold reserve. cbn [valloc].
  replace (n <=? 0) with false by (symmetry; apply N.leb_gt; lia). rewrite grow_diverges by auto. reflexivity.
Qed.
Print Assumptions C26_reserve_refuted.

Example C26_example :
  exists s, vrun 0 0 4 yes once vstate0 [VList [1; 2; 3]; VReserve 0 100; VSize 0; VReserve 0 50; VReserve 0 200; VReserve 0 400; VElems 0]
    = Ret (s, [RObj 0; RUnit; RNum 3; RUnit; RUnit; RThrow BadAllocNoMemory; RList [1; 2; 3]]).
Proof. eexists. vm_compute. reflexivity. Qed.

(** ** C53: the cost of push_back *)

(** Appending [n] elements to an empty vector calls realloc [n] times: reserve doubles the block but
    records only the requested size as capacity. *)
Theorem C53_growth_refuted :
  forall A (zero dflt : A) esz calloc_ok realloc_ok, 0 < esz -> (forall c n, realloc_ok c n = true) ->
    forall xs, len xs * esz < 2^63 ->
      exists s answers,
        vrun zero dflt esz calloc_ok realloc_ok vstate0 (VNew :: map (fun x => VPush 0 (Val x)) xs) = Ret (s, answers) /\
        calls s = length xs.
Proof.
  intros A zero dflt esz calloc_ok realloc_ok He Hr xs Hf.
  destruct (pushes_calls zero dflt esz calloc_ok realloc_ok He xs Hr (mkV Null 0 0) 0 []) as (v' & H1 & _).
  - split; [reflexivity|]. split; [cbn; lia|]. left. auto.
  - reflexivity.
  - apply N.ltb_lt. exact Hf.
  - eexists _, _. split.
    + cbn [vrun vstep bind add_obj objs vstate0 app length calls]. rewrite H1. reflexivity.
    + cbn [calls]. lia.
Qed.
Print Assumptions C53_growth_refuted.

(** No call makes more than one allocator call, and after a reserve(n) that did not throw push_back makes none until the
    size exceeds [n].  Missing: fewer reallocations than appended elements without reserve. *)
Theorem C53_growth_partial :
  forall A (zero dflt : A) esz calloc_ok realloc_ok,
    (forall l s s' answers, vrun zero dflt esz calloc_ok realloc_ok s l = Ret (s', answers) -> (calls s' <= length l + calls s)%nat) /\
    (forall i n s s1 s2 xs k answers,
       vstep zero dflt esz calloc_ok realloc_ok s (VReserve i n) = Ret (s1, RUnit) ->
       vstep zero dflt esz calloc_ok realloc_ok s1 (VSize i) = Ret (s1, RNum k) -> k + len xs <= n ->
       vrun zero dflt esz calloc_ok realloc_ok s1 (map (fun x => VPush i (Val x)) xs) = Ret (s2, answers) -> calls s2 = calls s1).
Proof. intros A zero dflt esz calloc_ok realloc_ok. split; [apply many_calls|apply reserved]. Qed.
Print Assumptions C53_growth_partial.

(** Three elements without reserve cost three calls, with reserve(3) one. *)
Example C53_three :
  (exists s as_, vrun 0 0 4 yes yes vstate0 [VNew; VPush 0 (Val 1); VPush 0 (Val 2); VPush 0 (Val 3)] = Ret (s, as_) /\ calls s = 3%nat) /\
  (exists s as_, vrun 0 0 4 yes yes vstate0 [VNew; VReserve 0 3; VPush 0 (Val 1); VPush 0 (Val 2); VPush 0 (Val 3)] = Ret (s, as_) /\ calls s = 1%nat).
Proof. split; eexists _, _; vm_compute; split; reflexivity. Qed.
