(** Property C98: vectors give their storage back.

    VectorHeapModel.v is the code of Vector.tcc with the blocks handed out by calloc, realloc and new;
    [zero], [dflt], [esz], [calloc_ok] and [realloc_ok] are as in VectorProps.v. *)
From Verif Require Import Base VectorSpec VectorModel VectorHeapSpec VectorHeapModel VectorHeapProof VectorProof2.
From Coq Require Import List NArith Arith Bool Lia.
Import ListNotations.
Local Open Scope N_scope.

(** The two models of the code answer every history alike, whatever the allocator does: what is proved
    of the other holds of this one, in particular that no call frees a block twice. *)
Theorem C98_same_answers :
  forall A (zero dflt : A) esz calloc_ok realloc_ok history,
    let with_blocks := hvrun zero dflt esz calloc_ok realloc_ok hstate0 history in
    let without := vrun zero dflt esz calloc_ok realloc_ok vstate0 history in
    (forall answers, (exists s, with_blocks = Ret (s, answers)) <-> (exists s, without = Ret (s, answers))) /\
    ((exists u, with_blocks = UB u) <-> (exists u, without = UB u)) /\
    (with_blocks = Diverge <-> without = Diverge).
Proof. intros A zero dflt esz calloc_ok realloc_ok l. exact (same_answers zero dflt esz calloc_ok realloc_ok l). Qed.
Print Assumptions C98_same_answers.

(** After any history, whatever the allocator does: no two vectors share a block, and the blocks not
    given back are those of the vectors alive and one for each call of emplace_back that returned.
    Once every vector is destroyed, exactly the latter are left. *)
Theorem C98_storage_exact :
  forall A (zero dflt : A) esz calloc_ok realloc_ok history s answers,
    hvrun zero dflt esz calloc_ok realloc_ok hstate0 history = Ret (s, answers) ->
    (forall i j v w a, nth_error (hobjs s) i = Some (Some v) -> nth_error (hobjs s) j = Some (Some w) ->
       hdata v = Some a -> hdata w = Some a -> i = j) /\
    live_blocks s = (blocks_held s + emplaced history answers)%nat /\
    (Forall (eq None) (hobjs s) -> live_blocks s = emplaced history answers).
Proof.
  intros A zero dflt esz calloc_ok realloc_ok l s as_ H.
  destruct (counted zero dflt esz calloc_ok realloc_ok l s as_ H) as [H1 H2].
  split; [exact H2|]. split; [exact H1|]. intros HF. rewrite H1, (none_held s HF). reflexivity.
Qed.
Print Assumptions C98_storage_exact.

(** Without emplace_back, as far as the calls have a meaning and calloc succeeds: nothing is left once
    every vector is destroyed.  Missing: emplace_back. *)
Theorem C98_storage_partial :
  forall A (zero dflt : A) esz calloc_ok realloc_ok, 0 < esz -> (forall c n, calloc_ok c n = true) ->
    forall history, no_emplace history ->
      exists before after s answers w,
        history = before ++ after /\
        hvrun zero dflt esz calloc_ok realloc_ok hstate0 before = Ret (s, answers) /\
        vexec zero dflt esz [] before answers w /\
        match after with [] => True | o :: _ => vspec zero dflt esz w o = None \/ departs w o = true end /\
        live_blocks s = blocks_held s /\
        (Forall (eq None) (hobjs s) -> live_blocks s = 0%nat).
Proof.
  intros A zero dflt esz calloc_ok realloc_ok He Hc l Hn.
  destruct (vrun_any zero dflt esz calloc_ok realloc_ok He Hc l vstate0 []) as (l1 & l2 & vs & as_ & w & H1 & H2 & H3 & _ & H5); [constructor|].
  destruct (proj2 (proj1 (same_answers zero dflt esz calloc_ok realloc_ok l1) as_) (ex_intro _ vs H2)) as [s Hs].
  destruct (counted zero dflt esz calloc_ok realloc_ok l1 s as_ Hs) as [HC _].
  rewrite (none_emplaced l1) in HC.
  - exists l1, l2, s, as_, w. rewrite Nat.add_0_r in HC. repeat split; auto. intros HF. rewrite HC. apply none_held. exact HF.
  - intros i a Hi. apply (Hn i a). subst l. apply in_or_app. auto.
Qed.
Print Assumptions C98_storage_partial.

(** Blocks outlive every vector once emplace_back was called. *)
Theorem C98_storage_refuted :
  exists history s answers,
    hvrun 0 0 4 (fun _ _ => true) (fun _ _ => true) hstate0 history = Ret (s, answers) /\
    Forall (eq None) (hobjs s) /\ live_blocks s = 1%nat.
Proof.
  exists [VNew; VEmplace 0 7; VDestroy 0]. eexists _, _. split; [vm_compute; reflexivity|].
  split; [repeat constructor|vm_compute; reflexivity].
Qed.
Print Assumptions C98_storage_refuted.

(** Copies, a swap, growth, a refused reallocation, two emplace_backs of which one throws: three
    blocks are held by the four vectors, one object is left behind.  The destructors leave that one;
    without the emplace_backs nothing is left. *)
Definition he_few : nat -> N -> bool := fun c _ => Nat.leb c 3.
Definition he_history : list (vop N) :=
  [VList [1; 2; 3]; VNew; VPush 0 (Val 4); VCopy 0; VSwap 0 1; VEmplace 0 5; VNew; VEmplace 0 6; VPush 2 (Val 8); VElems 1].
Definition he_end : list (vop N) := [VDestroy 2; VDestroy 0; VClear 1; VDestroy 3; VDestroy 1].
Example C98_example :
  omap (fun r => (live_blocks (fst r), blocks_held (fst r), length (hm (fst r)), snd r))
    (hvrun 0 0 4 (fun _ _ => true) he_few hstate0 he_history) =
    Ret (4%nat, 3%nat, 5%nat,
         [RObj 0; RObj 1; RUnit; RObj 2; RUnit; RUnit; RObj 3; RThrow BadAllocNoMemory; RThrow BadAllocNoMemory; RList [1; 2; 3; 4]]) /\
  omap (fun r => live_blocks (fst r)) (hvrun 0 0 4 (fun _ _ => true) he_few hstate0 (he_history ++ he_end)) = Ret 1%nat /\
  omap (fun r => live_blocks (fst r)) (hvrun 0 0 4 (fun _ _ => true) he_few hstate0
    ([VList [1; 2; 3]; VNew; VPush 0 (Val 4); VCopy 0; VSwap 0 1; VNew; VPush 2 (Val 8)] ++ he_end)) = Ret 0%nat.
Proof. split; [|split]; vm_compute; reflexivity. Qed.
