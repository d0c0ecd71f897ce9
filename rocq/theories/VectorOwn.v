(** Proofs for C23: arguments that are elements of the vector itself. *)
From Verif Require Import Base VectorSpec VectorModel VectorProof VectorProof2.
From Coq Require Import List NArith Arith Bool Lia.
Import ListNotations.
Local Open Scope N_scope.

Lemma nth_splice {B} (cs xs : list B) j k : (j + length xs <= length cs)%nat ->
  nth_error (splice cs j xs) k =
    if Nat.ltb k j then nth_error cs k else if Nat.ltb k (j + length xs) then nth_error xs (k - j) else nth_error cs k.
Proof.
  intros H. unfold splice. destruct (Nat.ltb_spec k j) as [H1|H1].
  - rewrite nth_error_app1 by (rewrite firstn_length; lia). rewrite <- (firstn_skipn j cs) at 2. rewrite nth_error_app1 by (rewrite firstn_length; lia). reflexivity.
  - rewrite nth_error_app2 by (rewrite firstn_length; lia). rewrite firstn_length, Nat.min_l by lia.
    destruct (Nat.ltb_spec k (j + length xs)) as [H2|H2].
    + now rewrite nth_error_app1 by lia.
    + rewrite nth_error_app2 by lia. rewrite <- (firstn_skipn (j + length xs) cs) at 2.
      rewrite (nth_error_app2 (firstn _ cs)) by (rewrite firstn_length; lia). rewrite firstn_length. f_equal. lia.
Qed.
Lemma nth_firstn {B} (l : list B) : forall n k, (k < n)%nat -> nth_error (firstn n l) k = nth_error l k.
Proof. induction l as [|b l IH]; intros [|n] [|k] H; cbn; auto; try lia. apply IH. lia. Qed.
Lemma nth_skipn {B} (l : list B) : forall n k, nth_error (skipn n l) k = nth_error l (n + k)%nat.
Proof. induction l as [|b l IH]; intros [|n] k; cbn; auto. now destruct k. Qed.

Section Own.
  Context {A : Type}.
  Variables zero dflt : A.
  Variable esz : N.
  Variables calloc_ok realloc_ok : nat -> N -> bool.
  Hypothesis esz_pos : 0 < esz.
  Hypothesis mem : forall c n, realloc_ok c n = true.

  Notation vec := (vec A).
  Notation shape := (shape (A:=A) esz).

  (** reserve beyond the capacity gives a new block *)
  Lemma reserve_grows v c (l : list A) n : shape v l -> fits esz n = true -> valloc v < n ->
    exists v' c', reserve esz realloc_ok v c n = Ret (v', c', None) /\ shape v' l /\ n <= valloc v'.
  Proof.
    intros Hs Hf Hn. destruct (reserve_good esz realloc_ok esz_pos v c l n Hs Hf) as (v' & c' & e & H & [(-> & H1 & H2)|(_ & _ & (c2 & n2 & H2))]).
    - eauto.
    - rewrite mem in H2. discriminate.
  Qed.
  Lemma resize_grows v c (l : list A) n : shape v l -> fits esz n = true -> 
    exists v' c', resize dflt esz realloc_ok v c n = Ret (v', c', None) /\ shape v' (resized l n dflt) /\ n <= valloc v'.
  Proof.
    intros Hs Hf. destruct (resize_good dflt esz realloc_ok esz_pos v c l n Hs Hf) as (v' & c' & e & H & [(-> & H1 & H2)|(_ & _ & (c2 & n2 & H2))]).
    - eauto.
    - rewrite mem in H2. discriminate.
  Qed.

  Lemma nth_len (l : list A) k a : nth_error l (N.to_nat k) = Some a -> k < len l.
  Proof. intros H. assert (N.to_nat k < length l)%nat by (apply nth_error_Some; congruence). unfold len. lia. Qed.

  Lemma len_small v (l : list A) n : shape v l -> n <= valloc v -> u64 n = n.
  Proof. intros Hs Hn. destruct (shape_len esz esz_pos v l Hs) as (_ & _ & H & _). apply u64_small. change (2^64) with (2 * 2^63). lia. Qed.
  Lemma fit_small n : fits esz n = true -> u64 n = n.
  Proof. intros H. destruct (fits_small esz esz_pos n H) as [_ H']. apply u64_small. change (2^64) with (2 * 2^63). lia. Qed.

  Lemma push_own v c (l : list A) k a : shape v l -> nth_error l (N.to_nat k) = Some a -> fits esz (len l + 1) = true ->
    push_back esz realloc_ok v c (Elem k) = if len l + 1 <=? valloc v then push_back esz realloc_ok v c (Val a) else UB DeadObject.
  Proof.
    intros Hs Hk Hf. destruct (shape_len esz esz_pos v l Hs) as (Hsz & Hla & _ & _). unfold push_back. rewrite Hsz, (fit_small _ Hf).
    destruct (N.leb_spec (len l + 1) (valloc v)) as [Hn|Hn].
    - unfold reserve. rewrite (proj2 (N.leb_le _ _) Hn). cbn [andthen bind use_arg]. rewrite (proj2 (N.leb_le _ _) Hn).
      now rewrite (vread_shape esz esz_pos v l k a Hs Hk).
    - destruct (reserve_grows v c l (len l + 1) Hs Hf Hn) as (v' & c' & -> & _). cbn [andthen bind use_arg].
      now rewrite (proj2 (N.leb_gt _ _) Hn).
  Qed.

  Lemma resize_own v c (l : list A) n k a : shape v l -> nth_error l (N.to_nat k) = Some a -> fits esz n = true ->
    resize_with esz realloc_ok v c n (Elem k) = if n <=? valloc v then resize_with esz realloc_ok v c n (Val a) else UB DeadObject.
  Proof.
    intros Hs Hk Hf. destruct (shape_len esz esz_pos v l Hs) as (Hsz & Hla & _ & _). unfold resize_with.
    destruct (N.leb_spec n (valloc v)) as [Hn|Hn].
    - unfold reserve. rewrite (proj2 (N.leb_le _ _) Hn). cbn [andthen bind use_arg]. rewrite (proj2 (N.leb_le _ _) Hn).
      now rewrite (vread_shape esz esz_pos v l k a Hs Hk).
    - destruct (reserve_grows v c l n Hs Hf Hn) as (v' & c' & -> & Hs' & _). cbn [andthen bind use_arg].
      destruct (shape_len esz esz_pos v' l Hs') as (Hsz' & _). rewrite Hsz', (proj2 (N.ltb_lt _ _)) by lia. now rewrite (proj2 (N.leb_gt _ _) Hn).
  Qed.

  (** the cells after a resize within the capacity *)
  Lemma resize_cells v c (l : list A) n : shape v l -> l <> [] -> n <= valloc v ->
    exists cs, resize dflt esz realloc_ok v c n = Ret (mkV (Block cs) n (valloc v), c, None) /\ n <= ncells cs /\
      forall k a, nth_error l k = Some a -> nth_error cs k = Some (Some a).
  Proof.
    intros Hs Hl Hn. destruct (shape_len esz esz_pos v l Hs) as (Hsz & Hla & _ & _). destruct (shape_block esz v l Hs Hl) as (rest & Hv & Hr).
    unfold resize, resize_with, reserve. rewrite (proj2 (N.leb_le _ _) Hn). cbn [andthen bind use_arg]. rewrite Hsz, Hv.
    assert (Hc : forall r k a, nth_error l k = Some a -> nth_error (map Some l ++ r) k = Some (Some a)).
    { intros r k a H. rewrite nth_error_app1 by (rewrite map_length; apply nth_error_Some; congruence). now apply map_nth_error. }
    destruct (N.ltb_spec (len l) n) as [H|H].
    - destruct (vfill_shape esz esz_pos l rest (n - len l) dflt) as (rest' & -> & Hr'); [lia|]. cbn [bind]. eexists. split; [reflexivity|]. split.
      + unfold ncells, len in *. rewrite app_length, map_length, app_length. unfold copies. rewrite repeat_length. lia.
      + intros k a Hk. rewrite map_app, <- app_assoc. now apply Hc.
    - eexists. split; [reflexivity|]. split.
      + unfold ncells, len in *. rewrite app_length, map_length. lia.
      + intros k a Hk. now apply Hc.
  Qed.
  Lemma vread_cells (cs : list (option A)) k a : nth_error cs (N.to_nat k) = Some (Some a) -> vread (Block cs) k = Ret a.
  Proof.
    intros H. unfold vread. assert (N.to_nat k < length cs)%nat by (apply nth_error_Some; congruence).
    rewrite (proj2 (N.ltb_lt _ _)) by (unfold ncells; lia). now rewrite H.
  Qed.

  Lemma assign_own v c (l : list A) n k a : shape v l -> nth_error l (N.to_nat k) = Some a -> fits esz n = true ->
    assign_n dflt esz realloc_ok v c n (Elem k) = if n <=? valloc v then assign_n dflt esz realloc_ok v c n (Val a) else UB DeadObject.
  Proof.
    intros Hs Hk Hf. unfold assign_n. assert (Hl : l <> []) by (intros ->; now destruct (N.to_nat k)). destruct (N.leb_spec n (valloc v)) as [Hn|Hn].
    - destruct (resize_cells v c l n Hs Hl Hn) as (cs & -> & Hc & Hcs). cbn [andthen bind use_arg vdata]. rewrite (proj2 (N.leb_le _ _) Hn).
      now rewrite (vread_cells cs k a) by auto.
    - destruct (resize_grows v c l n Hs Hf) as (v' & c' & -> & _). cbn [andthen bind use_arg].
      destruct (N.eqb_spec n 0) as [->|_]; [lia|]. now rewrite (proj2 (N.leb_gt _ _) Hn).
  Qed.

  Lemma insert_own v c (l : list A) p n k a : shape v l -> p <= len l -> 0 < n -> fits esz (len l + n) = true ->
    nth_error l (N.to_nat k) <> None -> nth_error l (N.to_nat (if k <? p + n then k else k - n)) = Some a ->
    insert_n dflt esz realloc_ok v c p n (Elem k) =
      if len l + n <=? valloc v then insert_n dflt esz realloc_ok v c p n (Val a) else UB DeadObject.
  Proof.
    intros Hs Hp Hn0 Hf Hk Ha. unfold insert_n. destruct (shape_len esz esz_pos v l Hs) as (Hsz & Hla & _ & _). rewrite Hsz.
    rewrite (proj2 (N.ltb_ge _ _) Hp), (fit_small _ Hf).
    assert (Hl : l <> []) by (intros ->; now destruct (N.to_nat k)).
    assert (Hkl : k < len l) by (destruct (nth_error l (N.to_nat k)) eqn:E; [eapply nth_len; eauto|now elim Hk]).
    destruct (N.leb_spec (len l + n) (valloc v)) as [Hn|Hn].
    - destruct (resize_cells v c l (len l + n) Hs Hl Hn) as (cs & -> & Hc & Hcs). cbn [andthen bind use_arg vdata vsize valloc].
      rewrite (proj2 (N.ltb_ge _ _)) by lia. replace (len l + n - n - p) with (len l - p) by lia.
      rewrite (proj2 (N.leb_le _ _) Hn), (proj2 (N.eqb_neq n 0)) by lia.
      unfold vmove. destruct (N.eqb_spec (len l - p) 0) as [H0|H0].
      + cbn [bind]. rewrite (proj2 (N.ltb_lt k (p + n))) in Ha by lia. now rewrite (vread_cells cs k a) by auto.
      + unfold ncells in *. rewrite (proj2 (N.leb_le (p + _) _)), (proj2 (N.leb_le (p + n + _) _)) by lia. cbn [andb bind].
        rewrite (vread_cells _ k a); [reflexivity|]. rewrite nth_splice by (rewrite firstn_length, skipn_length; lia).
        rewrite firstn_length, skipn_length. destruct (N.ltb_spec k (p + n)) as [H|H].
        * rewrite (proj2 (Nat.ltb_lt _ _)) by lia. auto.
        * rewrite (proj2 (Nat.ltb_ge _ _)) by lia. rewrite (proj2 (Nat.ltb_lt _ _)) by lia.
          rewrite nth_firstn by lia. rewrite nth_skipn. replace (N.to_nat p + _)%nat with (N.to_nat (k - n)) by lia. auto.
    - destruct (resize_grows v c l (len l + n) Hs Hf) as (v' & c' & -> & Hs' & _). cbn [andthen bind].
      destruct (shape_len esz esz_pos v' _ Hs') as (Hsz' & _). rewrite (resized_len esz esz_pos) in Hsz'. rewrite Hsz'.
      rewrite (proj2 (N.ltb_ge _ _)) by lia. replace (len l + n - n - p) with (len l - p) by lia.
      rewrite (proj2 (N.eqb_neq n 0)) by lia. cbn [use_arg]. rewrite (proj2 (N.leb_gt _ _) Hn).
      unfold vmove. destruct (N.eqb_spec (len l - p) 0) as [H0|H0]; [reflexivity|].
      destruct (shape_block esz v' _ Hs') as (rest & -> & Hr). { intros E. apply (f_equal len) in E. rewrite (resized_len esz esz_pos) in E. unfold len in E at 2. cbn in E. lia. }
      assert (Hnc : len l + n <= ncells (map Some (resized l (len l + n) dflt) ++ rest)).
      { unfold ncells. rewrite app_length, map_length. pose proof (resized_len esz esz_pos l (len l + n) dflt). unfold len in *. lia. }
      rewrite (proj2 (N.leb_le (p + _) _)), (proj2 (N.leb_le (p + n + _) _)) by lia. reflexivity.
  Qed.

  Lemma own_step s (w : world) i v l k a : reached zero dflt esz calloc_ok realloc_ok s w -> (forall c n, calloc_ok c n = true) ->
    nth_error (objs s) i = Some (Some v) -> velems v = Ret l -> nth_error l (N.to_nat k) = Some a ->
    (fits esz (len l + 1) = true ->
      vstep zero dflt esz calloc_ok realloc_ok s (VPush i (Elem k)) =
        if len l + 1 <=? valloc v then vstep zero dflt esz calloc_ok realloc_ok s (VPush i (Val a)) else UB DeadObject) /\
    (forall n, fits esz n = true ->
      vstep zero dflt esz calloc_ok realloc_ok s (VResizeWith i n (Elem k)) =
        (if n <=? valloc v then vstep zero dflt esz calloc_ok realloc_ok s (VResizeWith i n (Val a)) else UB DeadObject) /\
      vstep zero dflt esz calloc_ok realloc_ok s (VAssignN i n (Elem k)) =
        (if n <=? valloc v then vstep zero dflt esz calloc_ok realloc_ok s (VAssignN i n (Val a)) else UB DeadObject)) /\
    (forall p n b, p <= len l -> 0 < n -> fits esz (len l + n) = true -> nth_error l (N.to_nat (if k <? p + n then k else k - n)) = Some b ->
      vstep zero dflt esz calloc_ok realloc_ok s (VInsert i p n (Elem k)) =
        if len l + n <=? valloc v then vstep zero dflt esz calloc_ok realloc_ok s (VInsert i p n (Val b)) else UB DeadObject).
  Proof.
    intros Hr Hc Hi Hv Hk.
    destruct (R_obj esz s w i v (reached_R zero dflt esz calloc_ok realloc_ok esz_pos Hc s w Hr) Hi) as (l' & _ & Hs).
    rewrite (velems_shape esz esz_pos v l' Hs) in Hv. injection Hv as ->.
    assert (Hg : get_obj s i = Ret v) by (unfold get_obj; now rewrite Hi).
    split; [|split].
    - intros Hf. cbn [vstep]. rewrite Hg. cbn [bind]. rewrite (push_own v _ l k a Hs Hk Hf). now destruct (_ <=? _).
    - intros n Hf. cbn [vstep]. rewrite Hg. cbn [bind]. rewrite (resize_own v _ l n k a Hs Hk Hf), (assign_own v _ l n k a Hs Hk Hf). now destruct (_ <=? _).
    - intros p n b Hp Hn Hf Hb. cbn [vstep]. rewrite Hg. cbn [bind].
      rewrite (insert_own v _ l p n k b Hs Hp Hn Hf) by congruence. now destruct (_ <=? _).
  Qed.
End Own.
