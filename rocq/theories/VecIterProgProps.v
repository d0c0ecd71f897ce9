(** Property C112: programs that keep iterators into an eni::Vector.

    The program starts with an empty vector and no iterators; [realloc_ok] says which allocations succeed. *)
From Verif Require Import Base VectorSpec VectorModel VectorProof VectorProof2 VecIterOps VecIterModel VecIterProof3.
From Coq Require Import List Arith NArith Bool Lia.
Import ListNotations.
Local Open Scope N_scope.

(** ** As far as the calls of a program have a meaning for a sequence and positions in it (VecIterOps.v), it runs, its answers are
    those of the sequence and the vector holds the sequence. A call is refused for lack of memory only if it needs more room than
    there is and an allocation failed, and then nothing has changed. *)
Theorem C112_program :
  forall A (dflt : A) esz realloc_ok, 0 < esz ->
    forall program, exists before after s answers p,
      program = before ++ after /\
      irun dflt esz realloc_ok istart before = Ret (s, answers) /\
      iexec dflt esz places0 before answers p /\
      velems (iv (st_v s)) = Ret (items p) /\
      (In (IThrow BadAllocNoMemory) answers -> exists c n, realloc_ok c n = false) /\
      (after = [] \/ exists o rest, after = o :: rest /\ ispec dflt esz p o = None).
Proof.
  intros A dflt esz realloc_ok He program.
  destruct (run_done dflt esz realloc_ok He program _ _ (start_agrees esz)) as (l1 & l2 & s & ans & p & H1 & H2 & H3 & H4 & H5 & H6).
  exists l1, l2, s, ans, p. repeat (split; [assumption|]). split; [destruct H4 as (H4 & _); eapply velems_shape; eauto|]. split; [exact H5|exact H6].
Qed.
Print Assumptions C112_program.

(** ** If there is always memory, a program has one run: its answers are determined by the sequence alone. *)
Fixpoint meaning {A} (dflt : A) (esz : N) (p : places A) (l : list (iop A)) : option (list (ianswer A) * places A) :=
  match l with
  | [] => Some ([], p)
  | o :: l' =>
      match ispec dflt esz p o with
      | Some (p', a) => match meaning dflt esz p' l' with Some (as_, p'') => Some (a :: as_, p'') | None => None end
      | None => None
      end
  end.
Theorem C112_memory :
  forall A (dflt : A) esz realloc_ok, 0 < esz -> (forall c n, realloc_ok c n = true) ->
    forall program answers p, meaning dflt esz places0 program = Some (answers, p) ->
      exists s, irun dflt esz realloc_ok istart program = Ret (s, answers) /\ velems (iv (st_v s)) = Ret (items p).
Proof.
  intros A dflt esz realloc_ok He Hr program answers p Hm.
  enough (H : forall l s p0 ans p1, agrees esz s p0 -> meaning dflt esz p0 l = Some (ans, p1) ->
    exists s', irun dflt esz realloc_ok s l = Ret (s', ans) /\ agrees esz s' p1).
  { destruct (H _ _ _ _ _ (start_agrees esz) Hm) as (s & H1 & H2 & _). exists s. split; auto. eapply velems_shape; eauto. }
  clear Hm program answers p. induction l as [|o l IH]; intros s p0 ans p1 HA Hm; cbn [meaning] in Hm.
  - injection Hm as <- <-. exists s. split; auto.
  - destruct (ispec dflt esz p0 o) as [[p2 a]|] eqn:E; [|discriminate]. destruct (meaning dflt esz p2 l) as [[ans2 p3]|] eqn:E2; [|discriminate].
    injection Hm as <- <-. destruct (step_done dflt esz realloc_ok He s p0 o p2 a HA E) as (s1 & a' & H1 & [(-> & H2)|(_ & _ & _ & c & n & H3)]).
    + destruct (IH s1 p2 ans2 p3 H2 E2) as (s' & H4 & H5). exists s'. split; auto. cbn [irun]. rewrite H1. cbn [bind]. now rewrite H4.
    + rewrite Hr in H3. discriminate.
Qed.
Print Assumptions C112_memory.

(** ** The answers of a program tell what the vector holds, also if memory was refused on the way. *)
Theorem C112_answers :
  forall A (dflt : A) esz realloc_ok, 0 < esz ->
    forall program s answers p, irun dflt esz realloc_ok istart program = Ret (s, answers) -> iexec dflt esz places0 program answers p ->
      velems (iv (st_v s)) = Ret (items p).
Proof.
  intros A dflt esz realloc_ok He program s answers p Hr Hx.
  destruct (run_agrees dflt esz realloc_ok He _ _ _ _ _ _ (start_agrees esz) Hr Hx) as (H & _). eapply velems_shape; eauto.
Qed.
Print Assumptions C112_answers.

(** ** An iterator that was lost cannot be used: reading or writing through it or moving it is undefined, after any program. *)
Theorem C112_lost :
  forall A (dflt : A) esz realloc_ok, 0 < esz ->
    forall program s answers p j o, irun dflt esz realloc_ok istart program = Ret (s, answers) -> iexec dflt esz places0 program answers p ->
      nth_error (pos p) j = Some None ->
      o = IGet j \/ (exists a, o = ISet j a) \/ o = INext j \/ o = IPrev j ->
      irun dflt esz realloc_ok istart (program ++ [o]) = UB DeadObject.
Proof.
  intros A dflt esz realloc_ok He program s answers p j o Hr Hx Hj Ho.
  pose proof (run_agrees dflt esz realloc_ok He _ _ _ _ _ _ (start_agrees esz) Hr Hx) as HA.
  pose proof (lost_use dflt esz realloc_ok He s p o j HA Hj Ho) as Hu. clear Hx HA Hj Ho.
  revert Hr Hu. generalize (@istart A) as s0. revert answers.
  induction program as [|o' l IH]; intros answers s0 Hr Hu; cbn [app irun] in *.
  - injection Hr as -> _. now rewrite Hu.
  - destruct (istep dflt esz realloc_ok s0 o') as [[s1 a]| | | |]; cbn [bind] in *; try discriminate.
    destruct (irun dflt esz realloc_ok s1 l) as [[s2 as_]| | | |] eqn:E; cbn [bind] in *; try discriminate.
    injection Hr as -> _. now rewrite (IH _ _ E Hu).
Qed.
Print Assumptions C112_lost.

(** ** Moving an iterator before the beginning is undefined after any program; so is moving it beyond the block, here past the end of
    a vector with one element. *)
Theorem C112_before_begin :
  forall A (dflt : A) esz realloc_ok, 0 < esz ->
    forall program s answers p j, irun dflt esz realloc_ok istart program = Ret (s, answers) -> iexec dflt esz places0 program answers p ->
      nth_error (pos p) j = Some (Some 0) -> irun dflt esz realloc_ok istart (program ++ [IPrev j]) = UB OutOfBounds.
Proof.
  intros A dflt esz realloc_ok He program s answers p j Hr Hx Hj.
  pose proof (run_agrees dflt esz realloc_ok He _ _ _ _ _ _ (start_agrees esz) Hr Hx) as HA.
  assert (Hp : pos_of p j = Some 0) by (unfold pos_of; now rewrite Hj).
  assert (Hu : istep dflt esz realloc_ok s (IPrev j) = UB OutOfBounds).
  { cbn [istep]. rewrite (get_pos esz s p j _ HA Hp). cbn [bind]. unfold it_prev, it_use. cbn [vblock voff]. now rewrite Nat.eqb_refl. }
  clear Hx HA Hj Hp. revert Hr Hu. generalize (@istart A) as s0. revert answers.
  induction program as [|o' l IH]; intros answers s0 Hr Hu; cbn [app irun] in *.
  - injection Hr as -> _. now rewrite Hu.
  - destruct (istep dflt esz realloc_ok s0 o') as [[s1 a]| | | |]; cbn [bind] in *; try discriminate.
    destruct (irun dflt esz realloc_ok s1 l) as [[s2 as_]| | | |] eqn:E; cbn [bind] in *; try discriminate.
    injection Hr as -> _. now rewrite (IH _ _ E Hu).
Qed.
Print Assumptions C112_before_begin.

(** moving an iterator on and on becomes undefined sooner or later *)
Theorem C112_on_and_on :
  forall A (dflt : A) esz realloc_ok, 0 < esz ->
    forall program s answers p j k, irun dflt esz realloc_ok istart program = Ret (s, answers) -> iexec dflt esz places0 program answers p ->
      nth_error (pos p) j = Some (Some k) ->
      exists m u, irun dflt esz realloc_ok istart (program ++ repeat (INext j) m) = UB u.
Proof. exact on_and_on. Qed.
Print Assumptions C112_on_and_on.

Theorem C112_past_end :
  forall A (dflt : A) esz realloc_ok, 0 < esz < 2^64 -> realloc_ok 0%nat esz = true ->
    forall a, irun dflt esz realloc_ok istart [IPush a; IEnd; INext 0] = UB OutOfBounds.
Proof.
  intros A dflt esz realloc_ok He Hr a. cbn [irun istep istart st_v st_c iv]. unfold push_back.
  change (u64 (vsize (@mkV A Null 0 0) + 1)) with 1. unfold reserve. cbn [valloc vsize vdata].
  change (1 <=? 0) with false. change (grow 200 0 1) with (Ret 1). cbn [bind].
  replace (u64 (esz * 1)) with esz by (rewrite N.mul_1_r; symmetry; apply u64_small; apply He).
  rewrite Hr. unfold andthen. cbn [bind use_arg]. rewrite N.div_same by lia. reflexivity.
Qed.
Print Assumptions C112_past_end.

(** An iterator survives insertions for which there is room, and shows the element that is now at its place; a push_back beyond
    the room loses all of them. *)
Definition a_program : list (iop N) :=
  [IReserve 4; IPush 10; IPush 20; IBegin; INext 0; IGet 0; IInsert 0 2 7; IGet 0; IGet 1; IEq 0 1; INext 1; ISet 1 8; IIndex 1;
   IErase 0; IGet 1; IEnd; IPrev 3; IErase 3; IPop; IPush 30; IPush 40; IPush 50].
Example C112_example :
  meaning 0 8 places0 a_program =
    Some ([IUnit; IUnit; IUnit; IUnit; IUnit; IVal 20; IUnit; IVal 7; IVal 7; IBool true; IUnit; IUnit; INum 2;
           IUnit; IVal 20; IUnit; IUnit; IThrow OutOfRangeVector; IVal 20; IUnit; IUnit; IUnit],
          mkPl [10; 8; 30; 40; 50] 5 [None; None; None; None]) /\
  irun 0 8 (fun _ _ => true) istart (a_program ++ [IGet 0]) = UB DeadObject /\
  (exists s, irun 0 8 (fun c _ => Nat.eqb c 0) istart a_program =
    Ret (s, [IUnit; IUnit; IUnit; IUnit; IUnit; IVal 20; IUnit; IVal 7; IVal 7; IBool true; IUnit; IUnit; INum 2;
             IUnit; IVal 20; IUnit; IUnit; IThrow OutOfRangeVector; IVal 20; IUnit; IUnit; IThrow BadAllocNoMemory]) /\
    velems (iv (st_v s)) = Ret [10; 8; 30; 40]).
Proof. split; [vm_compute; reflexivity|]. split; [vm_compute; reflexivity|]. eexists. split; [vm_compute; reflexivity|vm_compute; reflexivity]. Qed.

(** The hypotheses of C112_answers and C112_lost with memory refused on the way: the push_back that is refused keeps the iterator,
    the one that is not loses it. *)
Definition refused_once : list (iop N) := [IPush 10; IBegin; IPush 20; IGet 0; IPush 30].
Example C112_refused :
  let ok := fun c (_ : N) => negb (Nat.eqb c 1) in
  let answers := [IUnit; IUnit; IThrow BadAllocNoMemory; IVal 10; IUnit] in
  (exists s, irun 0 8 ok istart refused_once = Ret (s, answers)) /\
  iexec 0 8 places0 refused_once answers (mkPl [10; 30] 2 [None]) /\
  irun 0 8 ok istart (refused_once ++ [IGet 0]) = UB DeadObject.
Proof.
  cbn zeta. split; [eexists; vm_compute; reflexivity|]. split; [|vm_compute; reflexivity]. unfold refused_once.
  eapply iexec_ok; [reflexivity|]. eapply iexec_ok; [reflexivity|].
  apply iexec_nomem; [discriminate|reflexivity|]. eapply iexec_ok; [reflexivity|]. eapply iexec_ok; [reflexivity|]. constructor.
Qed.
