(** eni::Vector refines a sequence. *)
From Verif Require Import Base VectorSpec VectorModel.
From Coq Require Import List NArith ZArith Bool Lia.
Import ListNotations.
Local Open Scope N_scope.

(** ** The growth loop *)

Lemma u64_small n : n < 2^64 -> u64 n = n.
Proof. intros H. apply N.mod_small. exact H. Qed.

Lemma grow_ok fuel : forall c n, 0 < c -> c < n -> n <= 2^63 -> n <= c * 2^(N.of_nat fuel) ->
  exists t, grow fuel c n = Ret t /\ n <= t < 2 * n.
Proof.
  change (2^63) with 9223372036854775808.
  induction fuel as [|f IH]; intros c n H0 Hc Hn Hp.
  - change (2^N.of_nat 0) with 1 in Hp. lia.
  - cbn [grow]. unfold max_size. replace (c <? n) with true by (symmetry; apply N.ltb_lt; lia).
    replace (c <? 18446744073709551615) with true by (symmetry; apply N.ltb_lt; lia). cbn [andb].
    replace (0 <? c) with true by (symmetry; apply N.ltb_lt; lia).
    rewrite u64_small by (change (2^64) with 18446744073709551616; lia).
    destruct (N.ltb_spec (c * 2) n) as [H|H].
    + apply IH; try lia. rewrite Nat2N.inj_succ, N.pow_succ_r' in Hp. lia.
    + exists (c * 2). split; [|lia]. destruct f; cbn [grow]; replace (c * 2 <? n) with false by (symmetry; apply N.ltb_ge; lia); reflexivity.
Qed.

Lemma grow_step f n : grow (S f) 0 n = if (0 <? n) && (0 <? max_size) then grow f 1 n else Ret 0.
Proof. reflexivity. Qed.

Lemma grow_200 c n : c < n -> n <= 2^63 -> exists t, grow 200 c n = Ret t /\ n <= t /\ (t < 2 * n).
Proof.
  intros Hc Hn. destruct (N.eq_dec c 0) as [->|H0].
  - rewrite (grow_step 199).
    replace (0 <? n) with true by (symmetry; apply N.ltb_lt; lia). cbn [andb]. change (0 <? max_size) with true. cbv iota.
    destruct (N.ltb_spec 1 n) as [H|H].
    + destruct (grow_ok 199 1 n) as (t & Ht & H1 & H2); try lia; eauto.
    + exists 1. split; [|lia]. assert (E : forall f, grow f 1 n = Ret 1); [|apply E]. intros f. apply N.ltb_ge in H. destruct f; cbn [grow]; rewrite H; reflexivity.
  - destruct (grow_ok 200 c n) as (t & Ht & H1 & H2); try lia; eauto.
Qed.

(** From capacity 0 the loop never ends when more than 2^63 elements are asked for. *)
Lemma grow_diverges fuel n : 2^63 < n -> n < 2^64 -> grow fuel 0 n = Diverge.
Proof.
  intros Hn Hn'.
  assert (H : forall f c, c = 0 \/ (exists k, k < 64 /\ c = 2^k) -> grow f c n = Diverge).
  { induction f as [|f IH]; intros c Hc.
    - cbn [grow]. assert (Hlt : c <= 2^63).
      { destruct Hc as [->|(k & Hk & ->)]; [lia|]. apply N.pow_le_mono_r; lia. }
      change (2^63) with 9223372036854775808 in *. unfold max_size.
      replace (c <? n) with true by (symmetry; apply N.ltb_lt; lia).
      replace (c <? 18446744073709551615) with true by (symmetry; apply N.ltb_lt; lia). reflexivity.
    - assert (Hlt : c <= 2^63).
      { destruct Hc as [->|(k & Hk & ->)]; [lia|]. apply N.pow_le_mono_r; lia. }
      cbn [grow]. change (2^63) with 9223372036854775808 in *. unfold max_size.
      replace (c <? n) with true by (symmetry; apply N.ltb_lt; lia).
      replace (c <? 18446744073709551615) with true by (symmetry; apply N.ltb_lt; lia). cbn [andb].
      apply IH. destruct Hc as [->|(k & Hk & ->)].
      + right. exists 0. split; reflexivity.
      + replace (0 <? 2^k) with true by (symmetry; apply N.ltb_lt; apply N.neq_0_lt_0; apply N.pow_nonzero; discriminate).
        replace (2^k * 2) with (2^(N.succ k)) by (rewrite N.pow_succ_r'; lia).
        destruct (N.eq_dec k 63) as [->|Hk'].
        * left. reflexivity.
        * right. exists (N.succ k). split; [lia|]. apply u64_small. apply N.pow_lt_mono_r; lia. }
  apply H. auto.
Qed.

(** ** Lists *)

Lemma splice_app {B} (x y z y' : list B) k : length y = length y' -> length x = k ->
  splice (x ++ y ++ z) k y' = x ++ y' ++ z.
Proof.
  intros Hy <-. unfold splice. rewrite firstn_app, firstn_all, Nat.sub_diag. cbn [firstn]. rewrite app_nil_r.
  rewrite skipn_app, skipn_all2 by lia. rewrite skipn_app, skipn_all2 by lia. cbn [app].
  replace (length x + length y' - length x - length y)%nat with 0%nat by lia. reflexivity.
Qed.

Lemma splice_length {B} (cs xs : list B) k : (k + length xs <= length cs)%nat -> length (splice cs k xs) = length cs.
Proof. intros H. unfold splice. rewrite !app_length, firstn_length, skipn_length. lia. Qed.

Lemma split_at {B} (l : list B) n : (n <= length l)%nat -> exists x y, l = x ++ y /\ length x = n.
Proof. intros H. exists (firstn n l), (skipn n l). rewrite firstn_skipn, firstn_length. split; auto. lia. Qed.

Lemma set_nth_length {B} (l : list B) : forall i b, length (set_nth l i b) = length l.
Proof. induction l as [|x l IH]; intros [|i] b; cbn; auto. Qed.

Lemma set_nth_nth {B} (l : list B) : forall i j b, nth_error (set_nth l i b) j =
  if Nat.eqb i j then (if Nat.ltb j (length l) then Some b else None) else nth_error l j.
Proof.
  induction l as [|x l IH]; intros i j b; cbn [set_nth].
  - destruct (Nat.eqb i j); auto; destruct j; reflexivity.
  - destruct i as [|i], j as [|j]; cbn [nth_error Nat.eqb]; auto. rewrite IH. reflexivity.
Qed.

Lemma set_nth_app {B} (x z : list B) y b : set_nth (x ++ y :: z) (length x) b = x ++ b :: z.
Proof. induction x as [|c x IH]; cbn; auto. now rewrite IH. Qed.

Lemma map_repeat {B C} (f : B -> C) b n : map f (repeat b n) = repeat (f b) n.
Proof. induction n as [|n IH]; cbn; auto. now rewrite IH. Qed.

Section Proof.
  Context {A : Type}.
  Variables zero dflt : A.
  Variable esz : N.
  Variables calloc_ok realloc_ok : nat -> N -> bool.
  Hypothesis esz_pos : 0 < esz.

  Notation vec := (vec A).
  Notation reserve := (reserve esz realloc_ok).
  Notation resize := (resize dflt esz realloc_ok).
  Notation resize_with := (resize_with esz realloc_ok).
  Notation fits := (fits esz).

  (** ** The representation *)

  Definition shape (v : vec) (l : list A) : Prop :=
    vsize v = len l /\ valloc v * esz < 2^63 /\
    ((vdata v = Null /\ l = [] /\ valloc v = 0) \/
     (exists rest, vdata v = Block (map Some l ++ rest) /\ len l <= valloc v <= len l + N.of_nat (length rest))).

  Lemma shape_len v l : shape v l -> vsize v = len l /\ len l <= valloc v /\ valloc v < 2^63 /\ valloc v * esz < 2^63.
  Proof.
    intros (H1 & H2 & H3). split; auto. split; [|split; auto].
    - destruct H3 as [(_ & -> & ->)|(rest & _ & H)]; [reflexivity|lia].
    - nia.
  Qed.

  Lemma fits_small n : fits n = true -> n * esz < 2^63 /\ n < 2^63.
  Proof. unfold VectorSpec.fits. intros H. apply N.ltb_lt in H. split; auto. nia. Qed.

  Lemma len_app (a b : list A) : len (a ++ b) = len a + len b.
  Proof. unfold len. rewrite app_length. lia. Qed.
  Lemma len_copies n (a : A) : len (copies n a) = n.
  Proof. unfold len, copies. rewrite repeat_length. lia. Qed.

  (** ** Outcomes *)

  (** Memory was refused at some point. *)
  Definition refused : Prop := exists c n, realloc_ok c n = false.

  (** [m] finishes with a vector holding [l'], or runs out of memory and leaves [v0]. *)
  Definition good (m : outcome res) (v0 : vec) (l' : list A) (cap : N) : Prop :=
    exists v c e, m = Ret (v, c, e) /\
      ((e = None /\ shape v l' /\ cap <= valloc v) \/ (e = Some BadAllocNoMemory /\ v = v0 /\ refused)).

  Lemma good_ret v0 v c l' cap : shape v l' -> cap <= valloc v -> good (Ret (v, c, None)) v0 l' cap.
  Proof. intros H1 H2. exists v, c, None. auto. Qed.

  Lemma good_andthen m v0 l1 cap1 k l2 cap2 : good m v0 l1 cap1 ->
    (forall v c, shape v l1 -> cap1 <= valloc v -> good (k v c) v0 l2 cap2) -> good (andthen m k) v0 l2 cap2.
  Proof.
    intros (v & c & e & -> & [(-> & H1 & H2)|(-> & -> & H)]) Hk; cbn.
    - apply Hk; auto.
    - exists v0, c, (Some BadAllocNoMemory). auto.
  Qed.

  Lemma reserve_good v c l n : shape v l -> fits n = true -> good (reserve v c n) v l n.
  Proof.
    intros Hs Hf. destruct (fits_small n Hf) as [Hf1 Hf2]. destruct (shape_len v l Hs) as (Hsz & Hla & Ha & Hae).
    unfold VectorModel.reserve. destruct (N.leb_spec n (valloc v)) as [Hn|Hn]; [apply good_ret; auto|].
    destruct (grow_200 (valloc v) n) as (t & -> & Ht1 & Ht2); [lia|lia|]. cbn [bind].
    assert (Hb : u64 (esz * t) = esz * t). { apply u64_small. change (2^64) with (2 * 2^63). nia. }
    rewrite Hb. assert (Hd : esz * t / esz = t) by (rewrite N.mul_comm; apply N.div_mul; lia). rewrite Hd.
    destruct Hs as (_ & _ & [(Hv & -> & Hva)|(rest & Hv & Hr)]); rewrite Hv.
    - destruct (realloc_ok c (esz * t)) eqn:Er.
      + apply good_ret; [|cbn [valloc]; lia]. split; [exact Hsz|]. split; [exact Hf1|]. right. exists (repeat None (N.to_nat t)).
        split; [reflexivity|]. cbn [valloc]. rewrite repeat_length. unfold len in *. cbn [length] in *. lia.
      + exists v, (S c), (Some BadAllocNoMemory). split; auto. right. split; auto. split; auto. now exists c, (esz * t).
    - replace (esz * t =? 0) with false by (symmetry; apply N.eqb_neq; nia).
      destruct (realloc_ok c (esz * t)) eqn:Er.
      + apply good_ret; [|cbn [valloc]; lia]. split; [exact Hsz|]. split; [exact Hf1|]. right.
        set (m := N.to_nat t). rewrite firstn_app, map_length.
        rewrite (firstn_all2 (n := m) (map Some l)) by (rewrite map_length; unfold m, len in *; lia).
        rewrite <- app_assoc. exists (firstn (m - length l) rest ++ repeat None (m - length (map Some l ++ rest))).
        split; [reflexivity|]. cbn [valloc]. rewrite app_length, repeat_length, firstn_length, app_length, map_length.
        unfold m, len in *. lia.
      + exists v, (S c), (Some BadAllocNoMemory). split; auto. right. split; auto. split; auto. now exists c, (esz * t).
  Qed.

  Lemma vfill_shape (l : list A) rest n a : n <= N.of_nat (length rest) ->
    exists rest', vfill (Block (map Some l ++ rest)) (len l) n a = Ret (Block (map Some (l ++ copies n a) ++ rest'))
      /\ length rest = (N.to_nat n + length rest')%nat.
  Proof.
    intros Hn. unfold vfill. destruct (N.eqb_spec n 0) as [->|H0].
    - exists rest. split; [|reflexivity]. unfold copies. cbn. now rewrite app_nil_r.
    - unfold ncells, len. rewrite app_length, map_length.
      replace (N.of_nat (length l) + n <=? N.of_nat (length l + length rest)) with true by (symmetry; apply N.leb_le; lia).
      destruct (split_at rest (N.to_nat n)) as (x & y & -> & Hx); [lia|].
      exists y. rewrite app_length. split; [|lia]. rewrite Nat2N.id. rewrite splice_app.
      + rewrite map_app. unfold copies. rewrite map_repeat, <- app_assoc. reflexivity.
      + now rewrite repeat_length.
      + now rewrite map_length.
  Qed.

  Lemma resize_with_good v c l n a : shape v l -> fits n = true -> good (resize_with v c n (Val a)) v (resized l n a) n.
  Proof.
    intros Hs Hf. unfold VectorModel.resize_with. eapply good_andthen; [now apply (reserve_good v c l n)|].
    intros v1 c1 Hs1 Hc1. destruct (shape_len v1 l Hs1) as (Hsz & Hla & Ha & Hae). rewrite Hsz.
    destruct Hs1 as (_ & _ & Hd). unfold resized. destruct (N.ltb_spec (len l) n) as [Hn|Hn].
    - cbn [use_arg bind]. destruct Hd as [(Hv & -> & Hva)|(rest & Hv & Hr)].
      { exfalso. unfold len in Hn. cbn [length] in Hn. lia. }
      rewrite Hv. destruct (vfill_shape l rest (n - len l) a) as (rest' & -> & Hr'); [lia|]. cbn [bind].
      unfold take. rewrite firstn_all2 by (unfold len in *; lia).
      apply good_ret; [|cbn [valloc]; lia]. split; [cbn; rewrite len_app, len_copies; lia|]. split; [exact Hae|].
      right. exists rest'. split; [reflexivity|]. cbn [valloc]. rewrite len_app, len_copies. lia.
    - replace (n - len l) with 0 by lia. unfold copies. cbn [N.to_nat repeat]. rewrite app_nil_r. unfold take.
      assert (Hlen : len (firstn (N.to_nat n) l) = n) by (unfold len in *; rewrite firstn_length; lia).
      apply good_ret; [|cbn [valloc]; lia]. split; [cbn; auto|]. split; [exact Hae|].
      destruct Hd as [(Hv & -> & Hva)|(rest & Hv & Hr)].
      + left. cbn. rewrite firstn_nil. auto.
      + right. exists (map Some (skipn (N.to_nat n) l) ++ rest). cbn [vdata valloc]. split.
        * rewrite Hv, app_assoc, <- map_app, firstn_skipn. reflexivity.
        * rewrite Hlen, app_length, map_length, skipn_length. unfold len in *. lia.
  Qed.

  Lemma resize_good v c l n : shape v l -> fits n = true -> good (resize v c n) v (resized l n dflt) n.
  Proof. apply resize_with_good. Qed.

  (** overwriting a part of the sequence *)
  Lemma vwrite_shape (x y z : list A) rest y' : length y = length y' ->
    vwrite (Block (map Some (x ++ y ++ z) ++ rest)) (len x) y' = Ret (Block (map Some (x ++ y' ++ z) ++ rest)).
  Proof.
    intros Hl. unfold vwrite. destruct y' as [|a y'].
    - destruct y; [reflexivity|discriminate].
    - set (y2 := a :: y') in *. unfold ncells, len. rewrite app_length, map_length, !app_length.
      replace (_ <=? _) with true by (symmetry; apply N.leb_le; lia). rewrite Nat2N.id, !map_app, <- !app_assoc.
      rewrite splice_app; auto; now rewrite !map_length.
  Qed.

  Lemma vfill_all (l : list A) rest a : vfill (Block (map Some l ++ rest)) 0 (len l) a = Ret (Block (map Some (copies (len l) a) ++ rest)).
  Proof.
    unfold vfill, len. destruct (N.eqb_spec (N.of_nat (length l)) 0) as [H0|H0].
    - destruct l; [reflexivity|cbn in H0; lia].
    - unfold ncells. rewrite app_length, map_length.
      replace (_ <=? _) with true by (symmetry; apply N.leb_le; lia).
      pose proof (splice_app [] (map Some l) rest (repeat (Some a) (N.to_nat (N.of_nat (length l)))) 0) as H. cbn [app] in H.
      change (N.to_nat 0) with 0%nat. rewrite H; auto.
      + unfold copies. now rewrite map_repeat.
      + rewrite map_length, repeat_length. lia.
  Qed.

  Lemma shape_block v l : shape v l -> l <> [] -> exists rest, vdata v = Block (map Some l ++ rest) /\ len l <= valloc v <= len l + N.of_nat (length rest).
  Proof. intros (_ & _ & [(_ & -> & _)|H]) Hn; [congruence|exact H]. Qed.

  (** a vector with other contents of the same length *)
  Lemma shape_same v l l' p rest : shape v l -> len l' = len l -> p = Block (map Some l' ++ rest) ->
    valloc v <= len l + N.of_nat (length rest) -> shape (mkV p (vsize v) (valloc v)) l'.
  Proof.
    intros Hs Hl -> Hr. destruct (shape_len v l Hs) as (H1 & H2 & _ & H4). split; [cbn; congruence|]. split; [exact H4|].
    right. exists rest. split; [reflexivity|]. cbn [valloc]. rewrite Hl. lia.
  Qed.

  Lemma resized_len l n (a : A) : len (resized l n a) = n.
  Proof. unfold resized. rewrite len_app, len_copies. unfold take, len. rewrite firstn_length. lia. Qed.

  Lemma len_nil (l : list A) : len l = 0 -> l = [].
  Proof. destruct l; auto. unfold len. cbn [length]. lia. Qed.

  Lemma assign_n_good v c l n a : shape v l -> fits n = true ->
    good (assign_n dflt esz realloc_ok v c n (Val a)) v (copies n a) n.
  Proof.
    intros Hs Hf. unfold assign_n. eapply good_andthen; [now apply (resize_good v c l n)|].
    intros v1 c1 Hs1 Hc1. pose proof (resized_len l n dflt) as Hrl. destruct (N.eqb_spec n 0) as [->|H0].
    - apply len_nil in Hrl. rewrite Hrl in Hs1. apply good_ret; auto.
    - destruct (shape_block _ _ Hs1) as (rest & Hv & Hr). { intros E. rewrite E in Hrl. cbn in Hrl. lia. }
      cbn [use_arg bind]. rewrite Hv. pose proof (vfill_all (resized l n dflt) rest a) as HF. rewrite Hrl in HF, Hr. rewrite HF. cbn [bind].
      apply good_ret; [|cbn [valloc]; lia]. eapply shape_same; eauto; [rewrite Hrl, len_copies; auto|lia].
  Qed.

  Lemma assign_list_good v c l xs : shape v l -> fits (len xs) = true ->
    good (assign_list dflt esz realloc_ok v c xs) v xs (len xs).
  Proof.
    intros Hs Hf. unfold assign_list. eapply good_andthen; [now apply (resize_good v c l (len xs))|].
    intros v1 c1 Hs1 Hc1. pose proof (resized_len l (len xs) dflt) as Hrl. set (l1 := resized l (len xs) dflt) in *.
    assert (Hll : length l1 = length xs) by (unfold len in Hrl; lia).
    destruct xs as [|a xs'].
    - cbn [vwrite bind]. apply good_ret; [|cbn [valloc]; lia]. destruct l1; [|discriminate]. destruct v1; exact Hs1.
    - set (xs := a :: xs') in *. destruct (shape_block _ _ Hs1) as (rest & Hv & Hr). { intros E. rewrite E in Hll. discriminate. }
      rewrite Hv. pose proof (vwrite_shape [] l1 [] rest xs Hll) as HW. cbn [app len length N.of_nat] in HW. rewrite !app_nil_r in HW.
      change (len (A := A) []) with 0 in HW. rewrite HW. cbn [bind]. apply good_ret; [|cbn [valloc]; lia]. eapply shape_same; eauto; lia.
  Qed.

  Lemma fits_le n m : m <= n -> fits n = true -> fits m = true.
  Proof. unfold VectorSpec.fits. intros H1 H2. apply N.ltb_lt in H2. apply N.ltb_lt. nia. Qed.

  Lemma shape_fits v l : shape v l -> fits (len l) = true.
  Proof. intros Hs. destruct (shape_len v l Hs) as (_ & H & _ & H'). apply (fits_le (valloc v)); auto. now apply N.ltb_lt. Qed.

  Lemma push_back_good v c l a : shape v l -> fits (len l + 1) = true ->
    good (push_back esz realloc_ok v c (Val a)) v (l ++ [a]) (len l + 1).
  Proof.
    intros Hs Hf. destruct (shape_len v l Hs) as (Hsz & Hla & Ha & _). change (2^63) with 9223372036854775808 in Ha.
    unfold push_back. rewrite Hsz. rewrite u64_small by (change (2^64) with 18446744073709551616; lia).
    eapply good_andthen; [now apply (reserve_good v c l (len l + 1))|].
    intros v1 c1 Hs1 Hc1. destruct (shape_len v1 l Hs1) as (Hsz1 & _ & _ & Hae1). cbn [use_arg bind]. rewrite Hsz1.
    destruct Hs1 as (_ & _ & [(Hv & -> & Hva)|(rest & Hv & Hr)]).
    { exfalso. rewrite Hva in Hc1. lia. }
    rewrite Hv. destruct rest as [|r rest]; [cbn [length] in Hr; lia|].
    unfold vwrite. unfold ncells, len. rewrite app_length, map_length. cbn [length].
    replace (_ <=? _) with true by (symmetry; apply N.leb_le; lia). cbn [bind]. rewrite Nat2N.id.
    change (map Some l ++ r :: rest) with (map Some l ++ [r] ++ rest). rewrite splice_app by (auto; now rewrite map_length).
    fold (len l). rewrite u64_small by (change (2^64) with 18446744073709551616; lia).
    apply good_ret; [|cbn [valloc]; lia]. split; [cbn; rewrite len_app; reflexivity|]. split; [exact Hae1|]. right. exists rest.
    split; [cbn [vdata]; rewrite map_app, <- app_assoc; reflexivity|]. cbn [valloc length] in *. rewrite len_app. change (len [a]) with 1. lia.
  Qed.

  Lemma firstn_len {B} (x y : list B) n : n = length x -> firstn n (x ++ y) = x.
  Proof. intros ->. rewrite firstn_app, firstn_all, Nat.sub_diag. cbn. apply app_nil_r. Qed.
  Lemma skipn_len {B} (x y : list B) n : n = length x -> skipn n (x ++ y) = y.
  Proof. intros ->. rewrite skipn_app, skipn_all, Nat.sub_diag. reflexivity. Qed.

  (** making room for [n] elements at [len x] *)
  Lemma vmove_up (x y : list A) (d : list A) rest : 
    exists gap, length gap = length d /\
    vmove (Block (map Some ((x ++ y) ++ d) ++ rest)) (len x) (len x + len d) (len y)
    = Ret (Block (map Some x ++ gap ++ map Some y ++ rest)).
  Proof.
    unfold vmove, len. destruct (N.eqb_spec (N.of_nat (length y)) 0) as [H0|H0].
    - destruct y; [|cbn in H0; lia]. exists (map Some d). rewrite map_length. split; auto.
      rewrite app_nil_r, map_app, <- app_assoc. reflexivity.
    - unfold ncells. rewrite app_length, map_length, !app_length.
      replace (_ && _) with true by (symmetry; apply andb_true_intro; split; apply N.leb_le; lia).
      set (cs := map Some ((x ++ y) ++ d) ++ rest).
      assert (Hcs : cs = map Some x ++ map Some y ++ map Some d ++ rest) by (unfold cs; now rewrite !map_app, <- !app_assoc).
      assert (Hy : firstn (N.to_nat (N.of_nat (length y))) (skipn (N.to_nat (N.of_nat (length x))) cs) = map Some y).
      { rewrite Hcs, skipn_len by (rewrite map_length; lia). apply firstn_len. rewrite map_length. lia. }
      rewrite Hy. clear Hy.
      exists (firstn (length d) (skipn (length x) cs)). split.
      + rewrite firstn_length, skipn_length. unfold cs. rewrite app_length, map_length, !app_length. lia.
      + do 2 f_equal. unfold splice. rewrite map_length.
        assert (H1 : firstn (N.to_nat (N.of_nat (length x) + N.of_nat (length d))) cs = map Some x ++ firstn (length d) (skipn (length x) cs)).
        { replace (N.to_nat (N.of_nat (length x) + N.of_nat (length d))) with (length x + length d)%nat by lia.
          rewrite Hcs. rewrite skipn_len by now rewrite map_length. rewrite firstn_app, map_length.
          rewrite firstn_all2 by (rewrite map_length; lia). f_equal. f_equal. lia. }
        rewrite H1, <- app_assoc. do 3 f_equal.
        replace (N.to_nat (N.of_nat (length x) + N.of_nat (length d)) + length y)%nat with (length (map Some ((x ++ y) ++ d))).
        * unfold cs. now apply skipn_len.
        * rewrite map_length, !app_length. lia.
  Qed.

  Lemma vwrite_cells (cs : list (option A)) gap tl xs k : length gap = length xs -> N.to_nat k = length cs -> xs <> [] ->
    vwrite (Block (cs ++ gap ++ tl)) k xs = Ret (Block (cs ++ map Some xs ++ tl)).
  Proof.
    intros Hg Hk Hx. unfold vwrite. destruct xs as [|a xs']; [congruence|]. set (xs := a :: xs') in *.
    unfold ncells. rewrite !app_length. replace (_ <=? _) with true by (symmetry; apply N.leb_le; lia).
    rewrite splice_app; auto. now rewrite map_length.
  Qed.

  Lemma vfill_cells (cs : list (option A)) gap tl a k n : N.of_nat (length gap) = n -> N.to_nat k = length cs -> n <> 0 ->
    vfill (Block (cs ++ gap ++ tl)) k n a = Ret (Block (cs ++ map Some (copies n a) ++ tl)).
  Proof.
    intros Hg Hk Hx. unfold vfill. apply N.eqb_neq in Hx. rewrite Hx.
    unfold ncells. rewrite !app_length. replace (_ <=? _) with true by (symmetry; apply N.leb_le; lia).
    rewrite splice_app; auto; [|rewrite repeat_length; lia]. unfold copies. now rewrite map_repeat.
  Qed.

  Lemma take_drop k (l : list A) : take k l ++ drop k l = l.
  Proof. apply firstn_skipn. Qed.
  Lemma len_take k (l : list A) : k <= len l -> len (take k l) = k.
  Proof. unfold len, take. intros H. rewrite firstn_length. lia. Qed.

  Lemma insert_n_good v c l k n a : shape v l -> k <= len l -> fits (len l + n) = true ->
    good (insert_n dflt esz realloc_ok v c k n (Val a)) v (take k l ++ copies n a ++ drop k l) 0.
  Proof.
    intros Hs Hk Hf. destruct (shape_len v l Hs) as (Hsz & Hla & Ha & _). destruct (fits_small _ Hf) as [_ Hsm].
    unfold insert_n. rewrite Hsz. replace (len l <? k) with false by (symmetry; apply N.ltb_ge; lia).
    change (2^63) with 9223372036854775808 in *.
    rewrite u64_small by (change (2^64) with 18446744073709551616; lia).
    eapply good_andthen; [now apply (resize_good v c l (len l + n))|]. intros v1 c1 Hs1 Hc1.
    destruct (shape_len _ _ Hs1) as (Hsz1 & _ & _ & Hae1). rewrite resized_len in Hsz1. rewrite Hsz1.
    replace (len l + n <? k + n) with false by (symmetry; apply N.ltb_ge; lia).
    assert (Hres : resized l (len l + n) dflt = l ++ copies n dflt).
    { unfold resized, take. rewrite firstn_all2 by (unfold len; lia). f_equal. f_equal. lia. }
    rewrite Hres in Hs1.
    set (x := take k l). set (y := drop k l).
    assert (Hl : l = x ++ y) by (symmetry; apply take_drop).
    assert (Hx : len x = k) by (now apply len_take).
    assert (Hy : len l + n - n - k = len y) by (rewrite Hl, len_app; lia). rewrite Hy.
    destruct (N.eqb_spec n 0) as [->|Hn0].
    { (* nothing to insert *)
      change (copies 0 dflt) with (@nil A) in Hs1. rewrite app_nil_r in Hs1. change (copies 0 a) with (@nil A). cbn [app].
      rewrite <- Hl. 
      destruct Hs1 as (Hq1 & Hq2 & [(Hv & Hnil & Hva)|(rest & Hv & Hr)]); rewrite Hv.
      - assert (Hy0 : len y = 0) by (rewrite <- Hy, Hnil; cbn; lia). rewrite Hy0. cbn [vmove N.eqb bind].
        apply good_ret; [|cbn [valloc]; lia]. split; [cbn; lia|]. split; [exact Hq2|]. left. auto.
      - destruct (vmove_up x y [] rest) as (gap & Hg & HM). destruct gap; [|discriminate].
        rewrite app_nil_r, <- Hl, Hx in HM. change (len []) with 0 in HM. rewrite HM. cbn [bind app].
        apply good_ret; [|cbn [valloc]; lia]. split; [cbn; lia|]. split; [exact Hq2|]. right. exists rest. cbn [vdata].
        split; [f_equal; rewrite Hl, map_app, <- app_assoc; reflexivity|exact Hr]. }
    destruct (shape_block _ _ Hs1) as (rest & Hv & Hr). { intros E. apply (f_equal len) in E. rewrite len_app, len_copies in E. change (len []) with 0 in E. lia. }
    rewrite Hv. destruct (vmove_up x y (copies n dflt) rest) as (gap & Hg & HM). rewrite <- Hl, Hx, len_copies in HM. rewrite HM. cbn [bind use_arg].
    rewrite vfill_cells; auto.
    - cbn [bind]. apply good_ret; [|cbn [valloc]; lia]. split; [cbn [vsize]; rewrite !len_app, len_copies; lia|]. split; [exact Hae1|].
      right. exists rest. split; [cbn [vdata]; rewrite !map_app, <- !app_assoc; reflexivity|].
      cbn [valloc]. rewrite len_app, len_copies in Hr. rewrite !len_app, len_copies. rewrite Hl, len_app in Hr. lia.
    - rewrite Hg. pose proof (len_copies n dflt) as H. unfold len in H. exact H.
    - rewrite map_length. unfold len in Hx. lia.
  Qed.

  Lemma insert_list_good v c l k xs : shape v l -> k <= len l -> fits (len l + len xs) = true ->
    good (insert_list dflt esz realloc_ok v c k xs) v (take k l ++ xs ++ drop k l) 0.
  Proof.
    intros Hs Hk Hf. destruct (shape_len v l Hs) as (Hsz & Hla & Ha & _). destruct (fits_small _ Hf) as [_ Hsm].
    unfold insert_list. fold (len xs). set (n := len xs) in *. rewrite Hsz. replace (len l <? k) with false by (symmetry; apply N.ltb_ge; lia).
    change (2^63) with 9223372036854775808 in *.
    rewrite u64_small by (change (2^64) with 18446744073709551616; lia).
    eapply good_andthen; [now apply (resize_good v c l (len l + n))|]. intros v1 c1 Hs1 Hc1.
    destruct (shape_len _ _ Hs1) as (Hsz1 & _ & _ & Hae1). rewrite resized_len in Hsz1. rewrite Hsz1.
    replace (len l + n <? k + n) with false by (symmetry; apply N.ltb_ge; lia).
    assert (Hres : resized l (len l + n) dflt = l ++ copies n dflt).
    { unfold resized, take. rewrite firstn_all2 by (unfold len; lia). f_equal. f_equal. lia. }
    rewrite Hres in Hs1.
    set (x := take k l). set (y := drop k l).
    assert (Hl : l = x ++ y) by (symmetry; apply take_drop).
    assert (Hx : len x = k) by (now apply len_take).
    assert (Hy : len l + n - n - k = len y) by (rewrite Hl, len_app; lia). rewrite Hy.
    assert (Hdec : xs = [] \/ xs <> []) by (destruct xs; [left; reflexivity|right; discriminate]); destruct Hdec as [Hxs|Hxs].
    { assert (H : n = 0) by (unfold n; rewrite Hxs; reflexivity). clearbody n. subst n. rewrite Hxs. cbn [vwrite].
      change (copies 0 dflt) with (@nil A) in Hs1. rewrite app_nil_r in Hs1. cbn [app]. rewrite <- Hl.
      destruct Hs1 as (Hq1 & Hq2 & [(Hv & Hnil & Hva)|(rest & Hv & Hr)]); rewrite Hv.
      - assert (Hy0 : len y = 0) by (rewrite <- Hy, Hnil; cbn; lia). rewrite Hy0. cbn [vmove N.eqb bind].
        apply good_ret; [|cbn [valloc]; lia]. split; [cbn; lia|]. split; [exact Hq2|]. left. auto.
      - destruct (vmove_up x y [] rest) as (gap & Hg & HM). destruct gap; [|discriminate].
        rewrite app_nil_r, <- Hl, Hx in HM. change (len []) with 0 in HM. rewrite HM. cbn [bind app].
        apply good_ret; [|cbn [valloc]; lia]. split; [cbn; lia|]. split; [exact Hq2|]. right. exists rest. cbn [vdata].
        split; [f_equal; rewrite Hl, map_app, <- app_assoc; reflexivity|exact Hr]. }
    assert (Hn0 : 0 < n) by (unfold n, len; destruct xs; [congruence|cbn [length]; lia]).
    destruct (shape_block _ _ Hs1) as (rest & Hv & Hr). { intros E. apply (f_equal len) in E. rewrite len_app, len_copies in E. change (len []) with 0 in E. lia. }
    rewrite Hv. destruct (vmove_up x y (copies n dflt) rest) as (gap & Hg & HM). rewrite <- Hl, Hx, len_copies in HM. rewrite HM. cbn [bind].
    rewrite vwrite_cells; auto.
    - cbn [bind]. apply good_ret; [|cbn [valloc]; lia]. split; [cbn [vsize]; rewrite !len_app; fold n; lia|]. split; [exact Hae1|].
      right. exists rest. split; [cbn [vdata]; rewrite !map_app, <- !app_assoc; reflexivity|].
      cbn [valloc]. rewrite len_app, len_copies in Hr. rewrite !len_app. fold n. rewrite Hl, len_app in Hr. lia.
    - rewrite Hg. pose proof (len_copies n dflt) as H. unfold n, len in *. lia.
    - rewrite map_length. unfold len in Hx. lia.
  Qed.

  (** ** erase *)

  Lemma erase_throws v c f e : e <= f \/ vsize v <= e -> erase_range dflt esz realloc_ok v c f e = Ret (v, c, Some OutOfRangeVector).
  Proof.
    intros H. unfold erase_range. replace (_ || _) with true; auto. symmetry. apply orb_true_iff. destruct H; [left|right]; now apply N.leb_le.
  Qed.

  Lemma erase_good v c l f e : shape v l -> f < e -> e < len l ->
    good (erase_range dflt esz realloc_ok v c f e) v (take f l ++ drop e l) 0 /\
    exists v' c', erase_range dflt esz realloc_ok v c f e = Ret (v', c', None).
  Proof.
    intros Hs Hfe He. destruct (shape_len v l Hs) as (Hsz & Hla & Ha & Hae). pose proof (shape_fits v l Hs) as Hfit.
    destruct (shape_block v l Hs) as (rest & Hv & Hr). { intros ->. unfold len in He. cbn in He. lia. }
    set (x := take f l). set (z := drop e l).
    assert (Hx : length x = N.to_nat f) by (unfold x, take; rewrite firstn_length; unfold len in *; lia).
    assert (Hz : length z = (length l - N.to_nat e)%nat) by (unfold z, drop; now rewrite skipn_length).
    set (cs := map Some l ++ rest) in *.
    assert (HM : vmove (Block cs) e f (len l - e) = Ret (Block (map Some x ++ map Some z ++ skipn (N.to_nat f + length z) cs))).
    { unfold vmove. replace (len l - e =? 0) with false by (symmetry; apply N.eqb_neq; lia).
      unfold ncells, cs. rewrite app_length, map_length. fold cs. unfold len in *.
      replace (_ && _) with true by (symmetry; apply andb_true_intro; split; apply N.leb_le; lia).
      do 2 f_equal. unfold splice.
      assert (E1 : firstn (N.to_nat (N.of_nat (length l) - e)) (skipn (N.to_nat e) cs) = map Some z).
      { unfold cs. rewrite skipn_app, map_length. replace (N.to_nat e - length l)%nat with 0%nat by lia. cbn [skipn].
        rewrite skipn_map. fold (drop e l). fold z. apply firstn_len. rewrite map_length. lia. }
      rewrite E1, map_length. f_equal. unfold cs. rewrite firstn_app, map_length. replace (N.to_nat f - length l)%nat with 0%nat by lia.
      cbn [firstn]. rewrite app_nil_r, firstn_map. reflexivity. }
    set (rest1 := skipn (N.to_nat f + length z) cs) in *.
    assert (Hr1 : (length x + length z + length rest1 = length l + length rest)%nat).
    { unfold rest1. rewrite skipn_length. unfold cs. rewrite app_length, map_length. unfold len in *. lia. }
    assert (HE : erase_range dflt esz realloc_ok v c f e =
      Ret (mkV (Block (map Some x ++ map Some z ++ rest1)) (len l - (e - f)) (valloc v), c, None)).
    { unfold erase_range. rewrite Hsz. replace (_ || _) with false.
      2:{ symmetry. apply orb_false_iff. split; apply N.leb_gt; lia. }
      rewrite Hv, HM. cbn [bind]. unfold VectorModel.resize, VectorModel.resize_with, VectorModel.reserve. cbn [valloc].
      replace (len l - (e - f) <=? valloc v) with true by (symmetry; apply N.leb_le; lia). cbn [andthen bind vsize vdata valloc].
      replace (len l <? len l - (e - f)) with false by (symmetry; apply N.ltb_ge; lia). reflexivity. }
    rewrite HE. split; [|eauto].
    apply good_ret; [|cbn [valloc]; lia].
    assert (Hlen : len (x ++ z) = len l - (e - f)) by (rewrite len_app; unfold len in *; lia).
    split; [cbn; auto|]. split; [exact Hae|]. right. exists rest1. split; [cbn [vdata]; now rewrite map_app, <- app_assoc|].
    cbn [valloc]. rewrite Hlen. unfold len in *. lia.
  Qed.
End Proof.
