(** Ranges of the vector itself as arguments: proofs about VecIterModel.v. *)
From Verif Require Import Base VectorSpec VectorModel VectorProof VectorProof2 VectorOwn VecIterModel VecIterProof.
From Coq Require Import List Arith NArith Bool Lia.
Import ListNotations.
Local Open Scope N_scope.

Lemma splice_map {B C} (f : B -> C) l k xs rest : (k + length xs <= length l)%nat ->
  splice (map f l ++ rest) k (map f xs) = map f (splice l k xs) ++ rest.
Proof.
  intros H. unfold splice. rewrite !map_app, map_length, <- !app_assoc. f_equal; [|f_equal].
  - rewrite firstn_app, map_length. replace (k - length l)%nat with 0%nat by lia. cbn. now rewrite app_nil_r, firstn_map.
  - rewrite skipn_app, map_length. replace (k + length xs - length l)%nat with 0%nat by lia. cbn. now rewrite skipn_map.
Qed.

(** the elements [f .. f + n) of [m] copied to [k .. k + n) *)
Lemma vmove_in {A} (m : list A) rest f k n : f + n <= len m -> k + n <= len m ->
  vmove (Block (map Some m ++ rest)) f k n = Ret (Block (map Some (splice m (N.to_nat k) (take n (drop f m))) ++ rest)).
Proof.
  intros Hf Hk. unfold vmove, take, drop. destruct (N.eqb_spec n 0) as [->|Hn].
  - cbn [firstn N.to_nat]. unfold splice. cbn [app length]. rewrite Nat.add_0_r, firstn_skipn. reflexivity.
  - unfold ncells, len in *. rewrite app_length, map_length.
    rewrite (proj2 (N.leb_le (f + n) _)), (proj2 (N.leb_le (k + n) _)) by lia. cbn [andb].
    replace (firstn (N.to_nat n) (skipn (N.to_nat f) (map Some m ++ rest))) with (map Some (firstn (N.to_nat n) (skipn (N.to_nat f) m))).
    + rewrite splice_map; auto. rewrite firstn_length, skipn_length. lia.
    + rewrite skipn_app, map_length. replace (N.to_nat f - length m)%nat with 0%nat by lia. cbn [skipn].
      rewrite skipn_map, firstn_app, map_length, skipn_length. replace (N.to_nat n - (length m - N.to_nat f))%nat with 0%nat by lia.
      cbn [firstn]. now rewrite app_nil_r, firstn_map.
Qed.

Lemma front {B} (x y : list B) n f : (f + n <= length x)%nat -> firstn n (skipn f (x ++ y)) = firstn n (skipn f x).
Proof.
  intros H. rewrite skipn_app, firstn_app, skipn_length. replace (n - (length x - f))%nat with 0%nat by lia. apply app_nil_r.
Qed.

Lemma skipn_twice {B} (l : list B) : forall a b, skipn a (skipn b l) = skipn (b + a) l.
Proof. induction l as [|x l IH]; intros a [|b]; cbn; rewrite ?skipn_nil; auto. Qed.

Section Proof.
  Context {A : Type}.
  Variable dflt : A.
  Variable esz : N.
  Variable realloc_ok : nat -> N -> bool.
  Hypothesis esz_pos : 0 < esz.

  Notation shape := (shape (A:=A) esz).
  Notation resize := (resize dflt esz realloc_ok).

  Lemma sub_small e f : f <= e -> e < 2^63 -> sub64 e f = e - f.
  Proof.
    intros H1 H2. change (2^63) with 9223372036854775808 in H2. unfold sub64. rewrite (u64_small f) by (change (2^64) with 18446744073709551616; lia).
    unfold u64. replace (e + 18446744073709551616 - f) with (e - f + 1 * 18446744073709551616) by lia.
    try (rewrite N.mod_add by lia; apply N.mod_small; lia).
  Qed.

  (** resize within the capacity *)
  Lemma resize_fits v c l n : shape v l -> l <> [] -> n <= valloc v ->
    exists v', resize v c n = Ret (v', c, None) /\ shape v' (resized l n dflt) /\ vsize v' = n /\ valloc v' = valloc v.
  Proof.
    intros Hs Hl Hn. destruct (resize_cells dflt esz realloc_ok esz_pos v c l n Hs Hl Hn) as (cs & HR & _).
    assert (Hf : fits esz n = true).
    { destruct (shape_len esz esz_pos _ _ Hs) as (_ & _ & _ & H). unfold fits. apply N.ltb_lt. nia. }
    destruct (resize_good dflt esz realloc_ok esz_pos v c l n Hs Hf) as (v1 & c1 & e1 & HE & [(-> & Hs1 & _)|(-> & _)]); [|congruence].
    rewrite HR in HE. injection HE as <- <-. eexists. split; [exact HR|]. auto.
  Qed.
  Lemma resized_more (l : list A) n : resized l (len l + n) dflt = l ++ copies n dflt.
  Proof. unfold resized, take. rewrite firstn_all2 by (unfold len; lia). do 2 f_equal. lia. Qed.
  Lemma shape_any v l n : shape v l -> n <= len l -> shape (mkV (vdata v) n (valloc v)) (take n l).
  Proof.
    intros (H1 & H2 & H3) Hn. split; [cbn; unfold take, len in *; rewrite firstn_length; lia|]. split; [exact H2|]. cbn [vdata valloc].
    destruct H3 as [(Hv & -> & Ha)|(rest & Hv & Hr)].
    - left. unfold take. rewrite firstn_nil. auto.
    - right. exists (map Some (drop n l) ++ rest). split.
      + rewrite Hv, app_assoc, <- map_app. unfold take, drop. now rewrite firstn_skipn.
      + unfold take, drop, len in *. rewrite app_length, map_length, firstn_length, skipn_length. lia.
  Qed.

  Lemma assign_own_at v c l f e : shape v l -> f <= e -> e <= len l ->
    exists v', assign_own_range dflt esz realloc_ok v c f e = Ret (v', c, None) /\ shape v' (take (e - f) (drop f l)).
  Proof.
    intros Hs H1 H2. destruct (shape_len esz esz_pos _ _ Hs) as (Hsz & Hla & Hva & _). unfold assign_own_range. rewrite sub_small by lia.
    unfold VectorModel.resize, resize_with, reserve. rewrite (proj2 (N.leb_le _ _)) by lia. cbn [andthen bind].
    rewrite Hsz, (proj2 (N.ltb_ge _ _)) by lia. cbn [bind]. destruct (N.eqb_spec (e - f) 0) as [H0|H0].
    - eexists. split; [reflexivity|]. rewrite H0. apply (shape_any v l 0 Hs). lia.
    - rewrite (proj2 (N.ltb_ge _ _)) by lia. cbn [andthen bind vdata vsize valloc].
      destruct (shape_block esz v l Hs) as (rest & Hv & Hr). { intros ->. unfold len in H2. cbn in H2. lia. }
      rewrite Hv, vmove_in by lia. cbn [bind]. eexists. split; [reflexivity|].
      set (m := splice l _ _). assert (Hm : m = take (e - f) (drop f l) ++ drop (e - f) l).
      { unfold m, splice, take, drop. cbn [firstn N.to_nat app]. f_equal. f_equal. rewrite firstn_length, skipn_length. unfold len in *. lia. }
      assert (Hlm : len m = len l). { rewrite Hm. unfold len, take, drop in *. rewrite app_length, firstn_length, !skipn_length. lia. }
      assert (Hs1 : shape (mkV (Block (map Some m ++ rest)) (vsize v) (valloc v)) m) by (eapply (shape_same esz esz_pos); eauto; lia).
      apply (shape_any _ m (e - f)) in Hs1; [|lia]. cbn [vdata valloc] in Hs1.
      replace (take (e - f) (drop f l)) with (take (e - f) m); auto. rewrite Hm. unfold take at 1. apply firstn_len.
      unfold take, drop, len in *. rewrite firstn_length, skipn_length. lia.
  Qed.

  (** the elements [f .. e) after those from [k] on have moved by [e - f] *)
  Definition moved (l : list A) (k n : N) : list A := take (k + n) l ++ drop k l.

  (** a range in front of the place *)
  Lemma moved_front (l : list A) k n f : k <= len l -> f + n <= k -> take n (drop f (moved l k n)) = take n (drop f l).
  Proof.
    intros Hk Hf. unfold moved, take, drop, len in *. rewrite skipn_app, firstn_app, skipn_length, firstn_length.
    replace (N.to_nat n - _)%nat with 0%nat by lia. cbn [firstn]. rewrite app_nil_r, skipn_firstn_comm, firstn_firstn. f_equal. lia.
  Qed.
  Lemma insert_own_fate v c l k f e : shape v l -> k <= len l -> f < e -> e <= len l -> fits esz (len l + (e - f)) = true ->
    (valloc v < len l + (e - f) ->
      insert_own_range dflt esz realloc_ok v c k f e = UB DeadObject \/
      (exists c', insert_own_range dflt esz realloc_ok v c k f e = Ret (v, c', Some BadAllocNoMemory)) /\ refused realloc_ok) /\
    (len l + (e - f) <= valloc v -> f <= k < e -> insert_own_range dflt esz realloc_ok v c k f e = UB OutOfBounds) /\
    (len l + (e - f) <= valloc v -> e <= k \/ k < f ->
      exists v', insert_own_range dflt esz realloc_ok v c k f e = Ret (v', c, None) /\
        shape v' (take k l ++ take (e - f) (drop f (moved l k (e - f))) ++ drop k l)).
  Proof.
    intros Hs Hk H1 H2 Hf. destruct (shape_len esz esz_pos _ _ Hs) as (Hsz & Hla & Hva & _).
    assert (Hne : l <> []) by (intros ->; unfold len in H2; cbn in H2; lia).
    unfold insert_own_range. rewrite Hsz, (proj2 (N.ltb_ge _ _) Hk), sub_small by lia. set (n := e - f) in *.
    rewrite (fit_small esz esz_pos _ Hf).
    assert (Hmove : forall v1 : vec A, shape v1 (l ++ copies n dflt) -> exists rest, len l + n <= valloc v1 <= len l + n + N.of_nat (length rest) /\
      vmove (vdata v1) k (k + n) (len l + n - n - k) = Ret (Block (map Some (take (k + n) (l ++ copies n dflt) ++ drop k l) ++ rest))).
    { intros v1 Hs1. destruct (shape_block esz v1 _ Hs1) as (rest & Hv & Hr); [now destruct l|]. exists rest.
      assert (Hll : len (l ++ copies n dflt) = len l + n) by (unfold len, copies; rewrite app_length, repeat_length; lia).
      rewrite Hll in Hr. split; [lia|]. rewrite Hv, vmove_in by lia. do 4 f_equal. unfold splice, take, drop. f_equal.
      replace (firstn (N.to_nat (len l + n - n - k)) (skipn (N.to_nat k) (l ++ copies n dflt))) with (skipn (N.to_nat k) l).
        + rewrite (skipn_all2 (l ++ _)); [now rewrite app_nil_r|]. rewrite skipn_length, app_length. unfold copies. rewrite repeat_length. unfold len in *. lia.
        + rewrite skipn_app. unfold len in *. replace (N.to_nat k - length l)%nat with 0%nat by lia. cbn [skipn]. symmetry. apply firstn_len.
          rewrite skipn_length. lia. }
    split; [|split].
    - intros Hlt. destruct (resize_good dflt esz realloc_ok esz_pos v c l (len l + n) Hs Hf) as (v1 & c1 & e1 & -> & [(-> & Hs1 & _)|(-> & -> & Hr)]).
      + left. cbn [andthen bind]. rewrite resized_more in Hs1. destruct (shape_len esz esz_pos _ _ Hs1) as (Hsz1 & _).
        assert (Hll : len (l ++ copies n dflt) = len l + n) by (unfold len, copies; rewrite app_length, repeat_length; lia).
        rewrite Hsz1, Hll, (proj2 (N.ltb_ge _ _)) by lia. destruct (Hmove v1 Hs1) as (rest & _ & ->). cbn [bind].
        rewrite (proj2 (N.eqb_neq _ _)) by (unfold n; lia). now rewrite (proj2 (N.ltb_lt _ _) Hlt).
      + right. split; auto. cbn [andthen bind]. eauto.
    - intros Hroom Hin. destruct (resize_fits v c l (len l + n) Hs Hne Hroom) as (v1 & -> & Hs1 & Hv1 & _). cbn [andthen bind].
      rewrite resized_more in Hs1. rewrite Hv1, (proj2 (N.ltb_ge _ _)) by lia. destruct (Hmove v1 Hs1) as (rest & _ & ->). cbn [bind].
      rewrite (proj2 (N.eqb_neq _ _)) by (unfold n; lia). rewrite (proj2 (N.ltb_ge _ _) Hroom).
      now rewrite (proj2 (N.leb_le f k)), (proj2 (N.ltb_lt k e)) by lia.
    - intros Hroom Hout. destruct (resize_fits v c l (len l + n) Hs Hne Hroom) as (v1 & -> & Hs1 & Hv1 & Ha1). cbn [andthen bind].
      rewrite resized_more in Hs1. rewrite Hv1, (proj2 (N.ltb_ge _ _)) by lia. destruct (Hmove v1 Hs1) as (rest & Hr & ->). cbn [bind].
      rewrite (proj2 (N.eqb_neq _ _)) by (unfold n; lia). rewrite (proj2 (N.ltb_ge _ _) Hroom).
      replace ((f <=? k) && (k <? e)) with false.
      2:{ symmetry. apply andb_false_iff. destruct Hout; [right; apply N.ltb_ge|left; apply N.leb_gt]; lia. }
      set (m := take (k + n) (l ++ copies n dflt) ++ drop k l).
      assert (Hll : length (l ++ copies n dflt) = (length l + N.to_nat n)%nat) by (unfold copies; now rewrite app_length, repeat_length).
      assert (Hlm : len m = len l + n).
      { unfold m, len, take, drop in *. rewrite app_length, firstn_length, skipn_length, Hll. lia. }
      rewrite vmove_in by (unfold n in *; lia). cbn [bind]. eexists. split; [reflexivity|].
      assert (Hx : take n (drop f m) = take n (drop f (moved l k n))).
      { unfold m, moved, take, drop. unfold len in *. destruct Hout as [Ho|Ho].
        - change (firstn (N.to_nat n) (skipn (N.to_nat f) (firstn (N.to_nat (k + n)) l ++ skipn (N.to_nat k) l))) with (take n (drop f (moved l k n))).
          rewrite moved_front by (unfold len, n in *; lia). rewrite front by (rewrite firstn_length, Hll; unfold n in *; lia).
          rewrite skipn_firstn_comm, firstn_firstn. replace (Nat.min _ _) with (N.to_nat n) by (unfold n in *; lia). apply front. unfold n in *; lia.
        - do 3 f_equal. rewrite firstn_app. replace (N.to_nat (k + n) - length l)%nat with 0%nat by (unfold n; lia). cbn [firstn]. now rewrite app_nil_r. }
      assert (Hsp : splice m (N.to_nat k) (take n (drop f m)) = take k l ++ take n (drop f (moved l k n)) ++ drop k l).
      { unfold splice. assert (Hlx : length (take n (drop f m)) = N.to_nat n).
        { unfold take, drop, len in *. rewrite firstn_length, skipn_length. unfold n in *. lia. }
        rewrite Hlx, Hx. f_equal; [|f_equal].
        - unfold m, take, drop. unfold len in *. rewrite firstn_app, firstn_firstn, firstn_length, Hll.
          replace (N.to_nat k - _)%nat with 0%nat by lia. cbn [firstn]. rewrite app_nil_r. replace (Nat.min _ _) with (N.to_nat k) by lia.
          rewrite firstn_app. replace (N.to_nat k - length l)%nat with 0%nat by lia. cbn [firstn]. now rewrite app_nil_r.
        - unfold m. apply skipn_len. unfold take, len in *. rewrite firstn_length, Hll. lia. }
      rewrite Hsp. set (l' := take k l ++ _ ++ _) in *.
      assert (Hl' : len l' = len l + n).
      { rewrite <- Hsp. unfold len in *. rewrite splice_length; [exact Hlm|]. unfold take, drop. rewrite firstn_length, skipn_length. unfold n in *. lia. }
      destruct (shape_len esz esz_pos _ _ Hs1) as (_ & _ & _ & Hb1).
      split; [cbn [vsize]; lia|]. split; [exact Hb1|]. right. exists rest. cbn [vdata valloc]. split; auto. lia.
  Qed.

  (** a range behind it *)
  Lemma moved_behind (l : list A) k n f : k + n <= f -> f + n <= len l -> take n (drop f (moved l k n)) = take n (drop (f - n) l).
  Proof.
    intros Hk Hf. unfold moved, take, drop, len in *. rewrite skipn_app, firstn_length, (skipn_all2 (firstn _ _)) by (rewrite firstn_length; lia).
    cbn [app]. rewrite skipn_twice. do 2 f_equal. lia.
  Qed.
End Proof.
