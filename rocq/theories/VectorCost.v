(** Allocator calls made by vectors. *)
From Verif Require Import Base VectorSpec VectorModel VectorProof.
From Coq Require Import List NArith Bool Lia.
Import ListNotations.
Local Open Scope N_scope.

Section Cost.
  Context {A : Type}.
  Variables (zero dflt : A) (esz : N).
  Variables (calloc_ok realloc_ok : nat -> N -> bool).
  Notation vrun := (vrun zero dflt esz calloc_ok realloc_ok).
  Notation vstep := (vstep zero dflt esz calloc_ok realloc_ok).
  Notation reserve := (reserve esz realloc_ok).

  Lemma reserve_calls (v : vec A) c n v' c' e : reserve v c n = Ret (v', c', e) -> (c' <= S c)%nat /\ vsize v' = vsize v /\ (e = None -> n <= valloc v').
  Proof.
    unfold VectorModel.reserve. destruct (N.leb_spec n (valloc v)); [intros H1; injection H1 as <- <- <-; auto|].
    destruct (grow _ _ _); try discriminate. cbn [bind]. destruct (vdata v); try discriminate.
    - destruct (realloc_ok _ _); intros H1; injection H1 as <- <- <-; cbn; repeat split; try lia; discriminate.
    - destruct (_ =? 0); [intros H1; injection H1 as <- <- <-; cbn; repeat split; try lia; discriminate|].
      destruct (realloc_ok _ _); intros H1; injection H1 as <- <- <-; cbn; repeat split; try lia; discriminate.
  Qed.
  Lemma andthen_calls (m : outcome (res (A:=A))) k v c e b : andthen m k = Ret (v, c, e) ->
    (forall v' c' e', m = Ret (v', c', e') -> (c' <= b)%nat) -> (forall v' c' v c e, k v' c' = Ret (v, c, e) -> (c <= c')%nat) -> (c <= b)%nat.
  Proof.
    unfold andthen. destruct m as [[[v' c'] e']| | | |]; cbn [bind]; try discriminate. intros H Hm Hk. specialize (Hm _ _ _ eq_refl).
    destruct e'; [injection H as <- <- <-; auto|]. apply Hk in H. lia.
  Qed.

  Ltac nocall := repeat (match goal with
    | |- (if ?b then _ else _) = _ -> _ => destruct b
    | |- bind ?m _ = _ -> _ => destruct m; cbn [bind]
    | |- Ret _ = Ret _ -> _ => let H := fresh in intros H; injection H as <- <- <-; lia
    | |- _ = _ -> _ => discriminate
    end).
  Lemma resize_with_calls (v : vec A) c n x v' c' e : resize_with esz realloc_ok v c n x = Ret (v', c', e) -> (c' <= S c)%nat.
  Proof.
    intros H. apply (andthen_calls _ _ _ _ _ (S c) H).
    - intros v1 c1 e1 H1. now apply reserve_calls in H1.
    - clear. intros v1 c1 v2 c2 e2. nocall.
  Qed.
  Lemma resize_calls (v : vec A) c n v' c' e : resize dflt esz realloc_ok v c n = Ret (v', c', e) -> (c' <= S c)%nat.
  Proof. apply resize_with_calls. Qed.

  Ltac after L := intros H; eapply (andthen_calls _ _ _ _ _ _ H); [intros ? ? ? H1; eapply L; exact H1|clear; intros v1 c1 v2 c2 e2; nocall].

  Lemma assign_n_calls (v : vec A) c n x v' c' e : assign_n dflt esz realloc_ok v c n x = Ret (v', c', e) -> (c' <= S c)%nat.
  Proof. unfold assign_n. after resize_calls. Qed.
  Lemma assign_list_calls (v : vec A) c l v' c' e : assign_list dflt esz realloc_ok v c l = Ret (v', c', e) -> (c' <= S c)%nat.
  Proof. unfold assign_list. after resize_calls. Qed.
  Lemma push_calls (v : vec A) c x v' c' e : push_back esz realloc_ok v c x = Ret (v', c', e) -> (c' <= S c)%nat.
  Proof. unfold push_back. after reserve_calls. Qed.
  Lemma insert_n_calls (v : vec A) c k n x v' c' e : insert_n dflt esz realloc_ok v c k n x = Ret (v', c', e) -> (c' <= S c)%nat.
  Proof. unfold insert_n. destruct (_ <? _); [intros H; injection H as <- <- <-; lia|]. after resize_calls. Qed.
  Lemma insert_list_calls (v : vec A) c k l v' c' e : insert_list dflt esz realloc_ok v c k l = Ret (v', c', e) -> (c' <= S c)%nat.
  Proof. unfold insert_list. destruct (_ <? _); [intros H; injection H as <- <- <-; lia|]. after resize_calls. Qed.
  Lemma erase_calls (v : vec A) c f e0 v' c' e : erase_range dflt esz realloc_ok v c f e0 = Ret (v', c', e) -> (c' <= S c)%nat.
  Proof. unfold erase_range. destruct (_ || _); [intros H; injection H as <- <- <-; lia|]. destruct (vmove _ _ _ _); try discriminate. cbn [bind]. apply resize_calls. Qed.

  Lemma one_call s o s' a : vstep s o = Ret (s', a) -> (calls s' <= S (calls s))%nat.
  Proof.
    destruct o; cbn [VectorModel.vstep]; intros H;
    repeat (match type of H with
    | bind (VectorModel.get_obj _ _) _ = _ => destruct (VectorModel.get_obj _ _); cbn [bind] in H; try discriminate
    | bind (if ?b then _ else _) _ = _ => destruct b
    | bind (if ?b then _ else _) _ = _ => destruct b
    | (if ?b then _ else _) = _ => destruct b
    | bind (VectorModel.velems _) _ = _ => destruct (VectorModel.velems _); cbn [bind] in H; try discriminate
    | bind (bind (VectorModel.velems _) _) _ = _ => destruct (VectorModel.velems _); cbn [bind] in H; try discriminate
    | bind (VectorModel.vfill _ _ _ _) _ = _ => destruct (VectorModel.vfill _ _ _ _); cbn [bind] in H; try discriminate
    | bind (VectorModel.vwrite _ _ _) _ = _ => destruct (VectorModel.vwrite _ _ _); cbn [bind] in H; try discriminate
    | bind (VectorModel.vread _ _) _ = _ => destruct (VectorModel.vread _ _); cbn [bind] in H; try discriminate
    | bind (VectorModel.vclear _) _ = _ => destruct (VectorModel.vclear _); cbn [bind] in H; try discriminate
    | bind (VectorModel.pop_back _) _ = _ => destruct (VectorModel.pop_back _) as [[? ?]| | | |]; cbn [bind] in H; try discriminate
    end); try (injection H as <- <-; cbn [calls add_obj set_obj fst]; lia);
    (match type of H with bind ?m _ = _ => destruct m as [[[v1 c1] e1]| | | |] eqn:E; cbn [bind] in H; try discriminate end);
    (assert (Hc : (c1 <= S (calls s))%nat) by first [now apply resize_calls in E|now apply resize_with_calls in E|now apply assign_list_calls in E|now apply assign_n_calls in E|now apply reserve_calls in E|now apply push_calls in E|now apply insert_n_calls in E|now apply insert_list_calls in E|now apply erase_calls in E]);
    destruct e1; cbn [finish] in H; injection H as <- _; exact Hc.
  Qed.

  Lemma many_calls l : forall s s' as_, vrun s l = Ret (s', as_) -> (calls s' <= length l + calls s)%nat.
  Proof.
    induction l as [|o l IH]; intros s s' as_ H; cbn [VectorModel.vrun] in H; [injection H as <- _; auto|].
    destruct (vstep s o) as [[s1 a]| | | |] eqn:E; cbn [bind] in H; try discriminate. destruct (vrun s1 l) as [[s2 as2]| | | |] eqn:E2; cbn [bind] in H; try discriminate.
    injection H as <- _. apply IH in E2. apply one_call in E. cbn [length]. lia.
  Qed.

  Lemma get_set (s : vstate A) i v v' : nth_error (objs s) i = Some (Some v) -> nth_error (set_nth (objs s) i (Some v')) i = Some (Some v').
  Proof.
    generalize (objs s). intros l. revert i. induction l as [|x l IH]; intros [|i] H; cbn in *; try discriminate; auto.
  Qed.

  (** within the capacity no allocator call is made *)
  Lemma push_room (v : vec A) c x v' c' e : vsize v + 1 <= valloc v -> push_back esz realloc_ok v c (Val x) = Ret (v', c', e) ->
    c' = c /\ vsize v' <= vsize v + 1 /\ valloc v' = valloc v.
  Proof.
    intros Hr. unfold push_back, VectorModel.reserve. assert (Hu : u64 (vsize v + 1) <= vsize v + 1) by (apply N.mod_le; discriminate).
    destruct (N.leb_spec (u64 (vsize v + 1)) (valloc v)) as [_|]; [|lia]. cbn [andthen bind use_arg].
    destruct (vwrite _ _ _); cbn [bind]; try discriminate. intros H. injection H as <- <- <-. auto.
  Qed.
  Lemma pushes_room i xs : forall s v s' as_, nth_error (objs s) i = Some (Some v) -> vsize v + len xs <= valloc v ->
    vrun s (map (fun x => VPush i (Val x)) xs) = Ret (s', as_) -> calls s' = calls s.
  Proof.
    induction xs as [|x xs IH]; intros s v s' as_ Hg Hr H; cbn [map VectorModel.vrun] in H; [now injection H as <- _|].
    cbn [VectorModel.vstep] in H. unfold get_obj in H. rewrite Hg in H. cbn [bind] in H.
    destruct (push_back esz realloc_ok v (calls s) (Val x)) as [[[v1 c1] e1]| | | |] eqn:E; cbn [bind] in H; try discriminate.
    assert (Hl : len (x :: xs) = len xs + 1) by (unfold len; cbn [length]; lia). rewrite Hl in Hr.
    destruct (push_room v (calls s) x v1 c1 e1) as (-> & H1 & H2); [lia|exact E|].
    assert (Hf : exists a, finish s i (v1, calls s, e1) = (mkS (set_nth (objs s) i (Some v1)) (calls s), a)) by (destruct e1; cbn; eauto). destruct Hf as (a & Hf). rewrite Hf in H. cbn [bind] in H.
    match type of H with context [VectorModel.vrun _ _ _ _ _ ?s1 ?l] => destruct (vrun s1 l) as [[s2 as2]| | | |] eqn:E2; cbn [bind] in H; try discriminate end. injection H as <- _.
    apply (IH _ v1) in E2; [exact E2| |lia]. cbn [objs]. eapply get_set; eauto.
  Qed.

  Lemma reserved i n s s1 s2 xs k as_ : vstep s (VReserve i n) = Ret (s1, RUnit) -> vstep s1 (VSize i) = Ret (s1, RNum k) -> k + len xs <= n ->
    vrun s1 (map (fun x => VPush i (Val x)) xs) = Ret (s2, as_) -> calls s2 = calls s1.
  Proof.
    cbn [VectorModel.vstep]. intros H1 H2 H3 H4. unfold get_obj in *. destruct (nth_error (objs s) i) as [[v|]|] eqn:Eg; cbn [bind] in H1; try discriminate.
    destruct (reserve v (calls s) n) as [[[v1 c1] e1]| | | |] eqn:E; cbn [bind] in H1; try discriminate. destruct e1; cbn [finish] in H1; [discriminate|]. injection H1 as <-.
    destruct (reserve_calls _ _ _ _ _ _ E) as (_ & _ & Hc). specialize (Hc eq_refl). cbn [objs] in H2. assert (Hg := get_set s i v v1 Eg). rewrite Hg in H2. cbn [bind] in H2. injection H2 as <-.
    apply (pushes_room i xs _ v1) in H4; [exact H4|exact Hg|lia].
  Qed.
End Cost.
