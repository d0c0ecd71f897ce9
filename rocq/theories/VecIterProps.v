(** Property C111: iterators of eni::Vector.

    As in VectorProps.v; [b] is the number of the block of the vector. *)
From Verif Require Import Base VectorSpec VectorModel VectorProof VectorProof2 VecIterModel VecIterSpec VecIterProof VecIterProof2.
From Coq Require Import List Arith NArith Bool Lia.
Import ListNotations.
Local Open Scope N_scope.

Section Close.
  Context {A : Type}.
  Variable esz : N.
  Hypothesis esz_pos : 0 < esz.
  Notation shape := (shape (A:=A) esz).
  Lemma shape_has v l : shape (iv v) l -> has v l.
  Proof.
    intros Hs. split; [eapply velems_shape; eauto|]. split.
    - intros k a Hk. unfold begin_plus. cbn. eapply deref_at; eauto.
    - unfold it_end, begin_plus. cbn. destruct (shape_len esz esz_pos _ _ Hs) as (-> & _). reflexivity.
  Qed.
  Lemma kept (v v' : ivec A) : iblock v' = iblock v -> all_kept v v'.
  Proof. intros H k. unfold begin_plus. cbn. now rewrite H. Qed.
  Lemma dead (v v' : ivec A) : iblock v' = S (iblock v) -> all_dead v v'.
  Proof.
    intros H k. assert (E : Nat.eqb (iblock v) (iblock v') = false) by (apply Nat.eqb_neq; rewrite H; auto).
    unfold it_deref, it_next, it_eq, it_index, it_use, begin_plus. cbn. rewrite E. auto.
  Qed.
End Close.

(** The reachable vector and its elements *)
Lemma reached_shape A (zero dflt : A) esz calloc_ok realloc_ok : 0 < esz -> (forall c n, calloc_ok c n = true) ->
  forall s w i v l, reached zero dflt esz calloc_ok realloc_ok s w -> nth_error (objs s) i = Some (Some v) -> velems v = Ret l -> shape esz v l.
Proof.
  intros He Hc s w i v l Hr Hn Hl. destruct (R_obj esz s w i v (reached_R zero dflt esz calloc_ok realloc_ok He Hc s w Hr) Hn) as (l' & _ & Hs).
  rewrite (velems_shape esz He v l' Hs) in Hl. now injection Hl as <-.
Qed.

(** ** begin() + k points to element k, and insert(it, n, a) puts n copies in front of what [it] points to and
    answers an iterator to the first of them, or throws bad_alloc and changes nothing. The iterators made before are still good
    exactly if the capacity was sufficient. *)
Theorem C111_insert :
  forall A (zero dflt : A) esz calloc_ok realloc_ok, 0 < esz -> (forall c n, calloc_ok c n = true) ->
    forall s w i v l b k n a,
      reached zero dflt esz calloc_ok realloc_ok s w -> nth_error (objs s) i = Some (Some v) -> velems v = Ret l ->
      k <= len l -> fits esz (len l + n) = true ->
      has (mkIV v b) l /\
      exists v' c r, it_insert dflt esz realloc_ok (mkIV v b) (calls s) (begin_plus (mkIV v b) k) n (Val a) = Ret (v', c, r) /\
        ((r = inl (begin_plus v' k) /\ has v' (take k l ++ copies n a ++ drop k l) /\
          (len l + n <= valloc v -> all_kept (mkIV v b) v') /\ (valloc v < len l + n -> all_dead (mkIV v b) v'))
         \/ (r = inr BadAllocNoMemory /\ v' = mkIV v b /\ exists c0 n0, realloc_ok c0 n0 = false)).
Proof.
  intros A zero dflt esz calloc_ok realloc_ok He Hc s w i v l b k n a Hr Hn Hl Hk Hf.
  pose proof (reached_shape A zero dflt esz calloc_ok realloc_ok He Hc s w i v l Hr Hn Hl) as Hs. split; [now apply (shape_has esz He)|].
  destruct (insert_at dflt esz realloc_ok He (mkIV v b) (calls s) l k n a Hs Hk Hf) as (v' & c & r & HE & HC). exists v', c, r. split; auto.
  destruct HC as [(-> & Hs' & Hb)|HC]; [left|right; exact HC]. split; auto. split; [now apply (shape_has esz He)|]. cbn [iv] in Hb. split; intros H.
  - apply kept. now rewrite (proj2 (N.leb_le _ _) H) in Hb.
  - apply dead. now rewrite (proj2 (N.leb_gt _ _) H) in Hb.
Qed.
Print Assumptions C111_insert.

(** insert(it, first, last) with a range outside the vector, and insert(it, {..}) *)
Theorem C111_insert_range :
  forall A (zero dflt : A) esz calloc_ok realloc_ok, 0 < esz -> (forall c n, calloc_ok c n = true) ->
    forall s w i v l b k xs,
      reached zero dflt esz calloc_ok realloc_ok s w -> nth_error (objs s) i = Some (Some v) -> velems v = Ret l ->
      k <= len l -> fits esz (len l + len xs) = true ->
      exists v' c r, it_insert_list dflt esz realloc_ok (mkIV v b) (calls s) (begin_plus (mkIV v b) k) xs = Ret (v', c, r) /\
        ((r = inl (begin_plus v' k) /\ has v' (take k l ++ xs ++ drop k l) /\
          (len l + len xs <= valloc v -> all_kept (mkIV v b) v') /\ (valloc v < len l + len xs -> all_dead (mkIV v b) v'))
         \/ (r = inr BadAllocNoMemory /\ v' = mkIV v b /\ exists c0 n0, realloc_ok c0 n0 = false)).
Proof.
  intros A zero dflt esz calloc_ok realloc_ok He Hc s w i v l b k xs Hr Hn Hl Hk Hf.
  pose proof (reached_shape A zero dflt esz calloc_ok realloc_ok He Hc s w i v l Hr Hn Hl) as Hs.
  destruct (insert_list_at dflt esz realloc_ok He (mkIV v b) (calls s) l k xs Hs Hk Hf) as (v' & c & r & HE & HC). exists v', c, r. split; auto.
  destruct HC as [(-> & Hs' & Hb)|HC]; [left|right; exact HC]. split; auto. split; [now apply (shape_has esz He)|]. cbn [iv] in Hb. split; intros H.
  - apply kept. now rewrite (proj2 (N.leb_le _ _) H) in Hb.
  - apply dead. now rewrite (proj2 (N.leb_gt _ _) H) in Hb.
Qed.
Print Assumptions C111_insert_range.

(** erase(first, last) answers an iterator to the element behind the erased ones, and all iterators stay good. Missing:
    ranges up to the end and empty ranges, which are refused (C25). *)
Theorem C111_erase_partial :
  forall A (zero dflt : A) esz calloc_ok realloc_ok, 0 < esz -> (forall c n, calloc_ok c n = true) ->
    forall s w i v l b f e,
      reached zero dflt esz calloc_ok realloc_ok s w -> nth_error (objs s) i = Some (Some v) -> velems v = Ret l ->
      (f < e -> e < len l ->
        exists v', it_erase_range dflt esz realloc_ok (mkIV v b) (calls s) (begin_plus (mkIV v b) f) (begin_plus (mkIV v b) e)
                   = Ret (v', calls s, inl (begin_plus v' f)) /\ has v' (take f l ++ drop e l) /\ all_kept (mkIV v b) v') /\
      (e <= f \/ len l <= e ->
        it_erase_range dflt esz realloc_ok (mkIV v b) (calls s) (begin_plus (mkIV v b) f) (begin_plus (mkIV v b) e)
        = Ret (mkIV v b, calls s, inr OutOfRangeVector)) /\
      (* erase(it) is erase(it, it + 1) *)
      (f < len l -> it_erase dflt esz realloc_ok (mkIV v b) (calls s) (begin_plus (mkIV v b) f) =
                    it_erase_range dflt esz realloc_ok (mkIV v b) (calls s) (begin_plus (mkIV v b) f) (begin_plus (mkIV v b) (f + 1))).
Proof.
  intros A zero dflt esz calloc_ok realloc_ok He Hc s w i v l b f e Hr Hn Hl.
  pose proof (reached_shape A zero dflt esz calloc_ok realloc_ok He Hc s w i v l Hr Hn Hl) as Hs. set (V := mkIV v b).
  unfold it_erase_range, it_erase. change (begin_plus V f) with (mkVI (iblock V) f). change (begin_plus V e) with (mkVI (iblock V) e).
  change (begin_plus V (f + 1)) with (mkVI (iblock V) (f + 1)). rewrite !index_at. cbn [bind]. split; [|split].
  - intros H1 H2. destruct (erase_range_at dflt esz realloc_ok He V (calls s) l f e Hs H1 H2) as (v' & HE & Hs' & Hb). exists v'.
    rewrite HE. unfold begin_plus. cbn [it_begin vblock voff]. rewrite Hb. split; auto. split; [now apply (shape_has esz He)|now apply kept].
  - intros H. rewrite (erase_run dflt esz realloc_ok He V (calls s) l f e Hs). replace ((e <=? f) || (len l <=? e)) with true; auto.
    symmetry. apply orb_true_iff. destruct H as [H|H]; [left|right]; now apply N.leb_le.
  - intros H. unfold erase_at. destruct (shape_len esz He _ _ Hs) as (_ & Hla & Hva & _). change (2^63) with 9223372036854775808 in Hva.
    rewrite u64_small; auto. change (2^64) with 18446744073709551616. lia.
Qed.
Print Assumptions C111_erase_partial.

(** A loop over all elements that may change them changes each once, and no iterator is lost. *)
Theorem C111_change_loop :
  forall A (zero dflt : A) esz calloc_ok realloc_ok, 0 < esz -> (forall c n, calloc_ok c n = true) ->
    forall s w i v l b f fuel,
      reached zero dflt esz calloc_ok realloc_ok s w -> nth_error (objs s) i = Some (Some v) -> velems v = Ret l -> (length l < fuel)%nat ->
      exists v', change_loop f fuel (mkIV v b) (it_begin (mkIV v b)) (it_end (mkIV v b)) = Ret v' /\ has v' (map f l) /\ all_kept (mkIV v b) v'.
Proof.
  intros A zero dflt esz calloc_ok realloc_ok He Hc s w i v l b f fuel Hr Hn Hl Hf.
  pose proof (reached_shape A zero dflt esz calloc_ok realloc_ok He Hc s w i v l Hr Hn Hl) as Hs.
  destruct (loop_change esz He f fuel l [] (mkIV v b) Hs Hf) as (v' & HL & Hs' & Hb). exists v'. split.
  - unfold it_end. cbn [iv]. destruct (shape_len esz He _ _ Hs) as (-> & _). exact HL.
  - split; [now apply (shape_has esz He)|now apply kept].
Qed.
Print Assumptions C111_change_loop.

(** The usual loop that erases, with the iterator that erase answers handed on by copying it: it leaves exactly the elements that
    are wanted, in order, if the last one is wanted. Missing: an unwanted last element, which makes the loop throw. *)
Theorem C111_loop_partial :
  forall A (zero dflt : A) esz calloc_ok realloc_ok, 0 < esz -> (forall c n, calloc_ok c n = true) ->
    forall s w i v l b p fuel,
      reached zero dflt esz calloc_ok realloc_ok s w -> nth_error (objs s) i = Some (Some v) -> velems v = Ret l -> (length l < fuel)%nat ->
      exists v' e, erase_loop dflt esz realloc_ok it_copy p fuel (mkIV v b) (calls s) (it_begin (mkIV v b)) = Ret (v', calls s, e) /\
        (l = [] -> e = None /\ has v' []) /\
        (forall l0 a, l = l0 ++ [a] -> p a = false -> e = None /\ has v' (filter (wanted p) l)) /\
        (forall l0 a, l = l0 ++ [a] -> p a = true -> e = Some OutOfRangeVector /\ has v' (filter (wanted p) l0 ++ [a])).
Proof.
  intros A zero dflt esz calloc_ok realloc_ok He Hc s w i v l b p fuel Hr Hn Hl Hf.
  pose proof (reached_shape A zero dflt esz calloc_ok realloc_ok He Hc s w i v l Hr Hn Hl) as Hs.
  destruct (loop_copy dflt esz realloc_ok He p fuel l [] (mkIV v b) (calls s) Hs Hf) as (v' & HL & Hs' & _).
  exists v', (snd (left_of p l)). split; [exact HL|]. cbn [app] in Hs'. apply (shape_has esz He) in Hs'. split; [|split].
  - intros ->. auto.
  - intros l0 a -> Ha. rewrite left_of_last, Ha in *. auto.
  - intros l0 a -> Ha. rewrite left_of_last, Ha in *. auto.
Qed.
Print Assumptions C111_loop_partial.

(** With [it = v.erase(it)] the loop is undefined as soon as something is erased: operator= of the iterator has no return statement.
    For every vector with an unwanted element: undefined, or refused if only the last is unwanted. *)
Theorem C111_loop_refuted :
  forall A (zero dflt : A) esz calloc_ok realloc_ok, 0 < esz -> (forall c n, calloc_ok c n = true) ->
    forall s w i v l b p fuel,
      reached zero dflt esz calloc_ok realloc_ok s w -> nth_error (objs s) i = Some (Some v) -> velems v = Ret l -> (length l < fuel)%nat ->
      let run := erase_loop dflt esz realloc_ok it_assign p fuel (mkIV v b) (calls s) (it_begin (mkIV v b)) in
      (forallb (wanted p) l = true -> run = Ret (mkIV v b, calls s, None)) /\
      (forall x a y, l = x ++ a :: y -> forallb (wanted p) x = true -> p a = true ->
         (y = [] -> run = Ret (mkIV v b, calls s, Some OutOfRangeVector)) /\ (y <> [] -> run = UB MissingReturn)).
Proof.
  intros A zero dflt esz calloc_ok realloc_ok He Hc s w i v l b p fuel Hr Hn Hl Hf.
  pose proof (reached_shape A zero dflt esz calloc_ok realloc_ok He Hc s w i v l Hr Hn Hl) as Hs.
  destruct (loop_assign dflt esz realloc_ok He p fuel l [] (mkIV v b) (calls s) Hs Hf) as [H1 H2]. split; [exact H1|].
  intros x a y E Hx Ha. pose proof (H2 x a y E Hx Ha) as H. cbn zeta. split.
  - intros ->. exact H.
  - intros Hy. destruct y; [congruence|exact H].
Qed.
Print Assumptions C111_loop_refuted.

(** assign(first, last) with a range of the vector itself leaves that range. *)
Theorem C111_own_assign :
  forall A (zero dflt : A) esz calloc_ok realloc_ok, 0 < esz -> (forall c n, calloc_ok c n = true) ->
    forall s w i v l f e,
      reached zero dflt esz calloc_ok realloc_ok s w -> nth_error (objs s) i = Some (Some v) -> velems v = Ret l -> f <= e -> e <= len l ->
      exists v', assign_own_range dflt esz realloc_ok v (calls s) f e = Ret (v', calls s, None) /\ velems v' = Ret (take (e - f) (drop f l)).
Proof.
  intros A zero dflt esz calloc_ok realloc_ok He Hc s w i v l f e Hr Hn Hl H1 H2.
  pose proof (reached_shape A zero dflt esz calloc_ok realloc_ok He Hc s w i v l Hr Hn Hl) as Hs.
  destruct (assign_own_at dflt esz realloc_ok He v (calls s) l f e Hs H1 H2) as (v' & HE & Hs'). exists v'. split; auto.
  eapply velems_shape; eauto.
Qed.
Print Assumptions C111_own_assign.

(** insert(k, first, last) with a range of the vector itself that ends no later than [k] inserts that range, if the capacity
    suffices. Missing: everything else, see the next theorem. *)
Theorem C111_own_insert_partial :
  forall A (zero dflt : A) esz calloc_ok realloc_ok, 0 < esz -> (forall c n, calloc_ok c n = true) ->
    forall s w i v l k f e,
      reached zero dflt esz calloc_ok realloc_ok s w -> nth_error (objs s) i = Some (Some v) -> velems v = Ret l ->
      k <= len l -> f < e -> e <= k -> len l + (e - f) <= valloc v ->
      exists v', insert_own_range dflt esz realloc_ok v (calls s) k f e = Ret (v', calls s, None) /\
        velems v' = Ret (take k l ++ take (e - f) (drop f l) ++ drop k l).
Proof.
  intros A zero dflt esz calloc_ok realloc_ok He Hc s w i v l k f e Hr Hn Hl Hk H1 H2 Hroom.
  pose proof (reached_shape A zero dflt esz calloc_ok realloc_ok He Hc s w i v l Hr Hn Hl) as Hs.
  assert (Hf : fits esz (len l + (e - f)) = true).
  { destruct (shape_len esz He _ _ Hs) as (_ & _ & _ & H). unfold fits. apply N.ltb_lt. nia. }
  assert (H3 : e <= len l) by lia.
  destruct (insert_own_fate dflt esz realloc_ok He v (calls s) l k f e Hs Hk H1 H3 Hf) as (_ & _ & HG).
  destruct (HG Hroom (or_introl H2)) as (v' & HE & Hs'). rewrite (moved_front esz He) in Hs' by lia. exists v'. split; auto. eapply velems_shape; eauto.
Qed.
Print Assumptions C111_own_insert_partial.

(** Otherwise: without room it is undefined (or memory is refused), around [k] too; behind [k], elements that have
    already moved are inserted: those [e - f] places before the range if it begins at [k + (e - f)] or later. *)
Theorem C111_own_insert_refuted :
  forall A (zero dflt : A) esz calloc_ok realloc_ok, 0 < esz -> (forall c n, calloc_ok c n = true) ->
    forall s w i v l k f e,
      reached zero dflt esz calloc_ok realloc_ok s w -> nth_error (objs s) i = Some (Some v) -> velems v = Ret l ->
      k <= len l -> f < e -> e <= len l -> fits esz (len l + (e - f)) = true ->
      let run := insert_own_range dflt esz realloc_ok v (calls s) k f e in
      (valloc v < len l + (e - f) ->
        run = UB DeadObject \/ ((exists c, run = Ret (v, c, Some BadAllocNoMemory)) /\ exists c0 n0, realloc_ok c0 n0 = false)) /\
      (len l + (e - f) <= valloc v -> f <= k < e -> run = UB OutOfBounds) /\
      (len l + (e - f) <= valloc v -> k < f ->
        exists v', run = Ret (v', calls s, None) /\
          velems v' = Ret (take k l ++ take (e - f) (drop f (take (k + (e - f)) l ++ drop k l)) ++ drop k l)) /\
      (len l + (e - f) <= valloc v -> k + (e - f) <= f ->
        exists v', run = Ret (v', calls s, None) /\ velems v' = Ret (take k l ++ take (e - f) (drop (f - (e - f)) l) ++ drop k l)).
Proof.
  intros A zero dflt esz calloc_ok realloc_ok He Hc s w i v l k f e Hr Hn Hl Hk H1 H2 Hf.
  pose proof (reached_shape A zero dflt esz calloc_ok realloc_ok He Hc s w i v l Hr Hn Hl) as Hs.
  destruct (insert_own_fate dflt esz realloc_ok He v (calls s) l k f e Hs Hk H1 H2 Hf) as (HA & HB & HG). cbn zeta.
  split; [exact HA|]. split; [exact HB|]. split.
  - intros Hroom Hlt. destruct (HG Hroom (or_intror Hlt)) as (v' & HE & Hs'). exists v'. split; auto. eapply velems_shape; eauto.
  - intros Hroom Hlt. assert (Hlt' : k < f) by lia. destruct (HG Hroom (or_intror Hlt')) as (v' & HE & Hs').
    rewrite (moved_behind esz He) in Hs' by lia. exists v'. split; auto. eapply velems_shape; eauto.
Qed.
Print Assumptions C111_own_insert_refuted.

Definition always : nat -> N -> bool := fun _ _ => true.
(** [1; 2; 3; 4; 5] with room for nine *)
Definition five : list (vop N) := [VList [1; 2; 3; 4; 5]; VReserve 0 9].
Example C111_example :
  exists s v, vrun 0 0 4 always always vstate0 five = Ret (s, [RObj 0; RUnit]) /\ nth_error (objs s) 0 = Some (Some v) /\
    velems v = Ret [1; 2; 3; 4; 5] /\ valloc v = 9 /\
    (exists v' c it, it_insert 0 4 always (mkIV v 1) (calls s) (begin_plus (mkIV v 1) 2) 2 (Val 7) = Ret (v', c, inl it) /\ it = begin_plus v' 2 /\
       velems (iv v') = Ret [1; 2; 7; 7; 3; 4; 5] /\ iblock v' = 1%nat) /\
    (exists v' c it, it_insert 0 4 always (mkIV v 1) (calls s) (begin_plus (mkIV v 1) 2) 5 (Val 7) = Ret (v', c, inl it) /\ it = begin_plus v' 2 /\
       iblock v' = 2%nat /\ it_deref v' (begin_plus (mkIV v 1) 0) = UB DeadObject) /\
    (exists v', erase_loop 0 4 always it_copy N.even 9 (mkIV v 1) (calls s) (it_begin (mkIV v 1)) = Ret (v', calls s, None) /\
       velems (iv v') = Ret [1; 3; 5]) /\
    (exists v', erase_loop 0 4 always it_copy N.odd 9 (mkIV v 1) (calls s) (it_begin (mkIV v 1)) = Ret (v', calls s, Some OutOfRangeVector) /\
       velems (iv v') = Ret [2; 4; 5]) /\
    erase_loop 0 4 always it_assign N.even 9 (mkIV v 1) (calls s) (it_begin (mkIV v 1)) = UB MissingReturn /\
    (exists v', change_loop (N.mul 2) 9 (mkIV v 1) (it_begin (mkIV v 1)) (it_end (mkIV v 1)) = Ret v' /\ velems (iv v') = Ret [2; 4; 6; 8; 10]) /\
    (exists v', assign_own_range 0 4 always v (calls s) 1 4 = Ret (v', calls s, None) /\ velems v' = Ret [2; 3; 4]) /\
    (exists v', insert_own_range 0 4 always v (calls s) 4 0 2 = Ret (v', calls s, None) /\ velems v' = Ret [1; 2; 3; 4; 1; 2; 5]) /\
    (* the elements 3 and 4 were meant *)
    (exists v', insert_own_range 0 4 always v (calls s) 0 2 4 = Ret (v', calls s, None) /\ velems v' = Ret [1; 2; 1; 2; 3; 4; 5]) /\
    insert_own_range 0 4 always v (calls s) 5 0 5 = UB DeadObject.
Proof.
  eexists _, _. split; [vm_compute; reflexivity|]. split; [vm_compute; reflexivity|].
  do 2 (split; [vm_compute; reflexivity|]).
  repeat match goal with
  | |- _ /\ _ => split
  | |- exists _, _ => eexists
  | |- _ = _ => vm_compute; reflexivity
  end.
Qed.
