(** Proofs about VecIterModel.v. *)
From Verif Require Import Base VectorSpec VectorModel VectorProof VectorProof2 VectorOwn VecIterModel.
From Coq Require Import List Arith NArith Bool Lia.
Import ListNotations.
Local Open Scope N_scope.

Section Proof.
  Context {A : Type}.
  Variable dflt : A.
  Variable esz : N.
  Variable realloc_ok : nat -> N -> bool.
  Hypothesis esz_pos : 0 < esz.

  Notation ivec := (ivec A).
  Notation shape := (shape (A:=A) esz).
  Notation resize := (resize dflt esz realloc_ok).

  (** ** When the block is another one *)

  Definition calls_to (c : nat) (fit : bool) : nat := if fit then c else S c.

  Lemma reserve_calls v c n v' c' e : reserve (A:=A) esz realloc_ok v c n = Ret (v', c', e) -> c' = calls_to c (n <=? valloc v).
  Proof.
    unfold reserve, calls_to. destruct (n <=? valloc v); [now intros [= _ <- _]|]. intros H. apply bind_ret in H. destruct H as (t & _ & H).
    destruct (vdata v); [| |].
    - destruct (realloc_ok c _); now injection H as _ <- _.
    - discriminate.
    - destruct (_ =? 0); [now injection H as _ <- _|]. destruct (realloc_ok c _); now injection H as _ <- _.
  Qed.
  Lemma andthen_ret (m : outcome (res (A:=A))) k r : andthen m k = Ret r ->
    exists v c e, m = Ret (v, c, e) /\ match e with None => k v c = Ret r | Some _ => r = (v, c, e) end.
  Proof.
    unfold andthen. intros H. apply bind_ret in H. destruct H as ([[v c] [e|]] & H1 & H2); exists v, c; eexists; split; eauto.
    now injection H2.
  Qed.
  Lemma resize_calls v c n v' c' e : resize v c n = Ret (v', c', e) -> c' = calls_to c (n <=? valloc v).
  Proof.
    unfold VectorModel.resize, resize_with. intros H. apply andthen_ret in H. destruct H as (v1 & c1 & e1 & H1 & H2).
    apply reserve_calls in H1. destruct e1; [injection H2 as _ -> _; auto|]. destruct (vsize v1 <? n).
    - apply bind_ret in H2. destruct H2 as (a & _ & H2). apply bind_ret in H2. destruct H2 as (p & _ & H2). now injection H2 as _ <- _.
    - now injection H2 as _ <- _.
  Qed.

  Ltac after H := repeat (match type of H with bind _ _ = Ret _ => apply bind_ret in H; destruct H as (? & _ & H) end).

  Lemma insert_n_calls v c k n x v' c' e : (k <= vsize v) -> insert_n dflt esz realloc_ok v c k n x = Ret (v', c', e) ->
    c' = calls_to c (u64 (vsize v + n) <=? valloc v).
  Proof.
    intros Hk. unfold insert_n. rewrite (proj2 (N.ltb_ge _ _) Hk). intros H. apply andthen_ret in H. destruct H as (v1 & c1 & e1 & H1 & H2).
    apply resize_calls in H1. destruct e1; [injection H2 as _ -> _; auto|]. destruct (_ <? _); [discriminate|]. after H2.
    destruct (n =? 0); [now injection H2 as _ <- _|]. after H2. now injection H2 as _ <- _.
  Qed.
  Lemma insert_list_calls v c k l v' c' e : (k <= vsize v) -> insert_list dflt esz realloc_ok v c k l = Ret (v', c', e) ->
    c' = calls_to c (u64 (vsize v + N.of_nat (length l)) <=? valloc v).
  Proof.
    intros Hk. unfold insert_list. rewrite (proj2 (N.ltb_ge _ _) Hk). intros H. apply andthen_ret in H. destruct H as (v1 & c1 & e1 & H1 & H2).
    apply resize_calls in H1. destruct e1; [injection H2 as _ -> _; auto|]. destruct (_ <? _); [discriminate|]. after H2.
    now injection H2 as _ <- _.
  Qed.
  Lemma erase_calls v c f e v' c' x : vsize v <= valloc v -> erase_range dflt esz realloc_ok v c f e = Ret (v', c', x) -> c' = c.
  Proof.
    intros Hv. unfold erase_range. destruct (_ || _); [now intros [= _ <- _]|]. intros H. apply bind_ret in H. destruct H as (p & _ & H).
    apply resize_calls in H. cbn [valloc] in H. rewrite (proj2 (N.leb_le _ _)) in H by lia. exact H.
  Qed.

  (** ** insert and erase *)

  Lemma settle_good v c k m l' fit : good esz realloc_ok m (iv v) l' 0 ->
    (forall v' c' e, m = Ret (v', c', e) -> c' = calls_to c fit) ->
    exists v' c' r, (r0 <- m ;; Ret (settle v c r0 k)) = Ret (v', c', r) /\
      ((r = inl (mkVI (iblock v') k) /\ shape (iv v') l' /\ iblock v' = if fit then iblock v else S (iblock v))
       \/ (r = inr BadAllocNoMemory /\ v' = v /\ refused realloc_ok)).
  Proof.
    intros (v1 & c1 & e1 & -> & HG) Hc. specialize (Hc _ _ _ eq_refl). cbn [bind].
    destruct HG as [(-> & Hs & _)|(-> & -> & Hr)]; cbn [settle].
    - eexists _, _, _. split; [reflexivity|]. left. cbn [iblock iv]. split; auto. split; auto. unfold calls_to in Hc. destruct fit; subst c1.
      + now rewrite Nat.eqb_refl.
      + rewrite (proj2 (Nat.eqb_neq _ _)); auto.
    - eexists _, _, _. split; [reflexivity|]. right. split; auto. split; auto. now destruct v.
  Qed.

  Lemma index_at v k : it_index (A:=A) v (mkVI (iblock v) k) = Ret k.
  Proof. unfold it_index, it_use. cbn. now rewrite Nat.eqb_refl. Qed.
  Lemma index_dead v it : vblock it <> iblock v -> it_index (A:=A) v it = UB DeadObject.
  Proof. unfold it_index, it_use. intros H. now rewrite (proj2 (Nat.eqb_neq _ _) H). Qed.

  Lemma insert_at v c l k n a : shape (iv v) l -> k <= len l -> fits esz (len l + n) = true ->
    exists v' c' r, it_insert dflt esz realloc_ok v c (mkVI (iblock v) k) n (Val a) = Ret (v', c', r) /\
      ((r = inl (mkVI (iblock v') k) /\ shape (iv v') (take k l ++ copies n a ++ drop k l) /\
        iblock v' = if len l + n <=? valloc (iv v) then iblock v else S (iblock v))
       \/ (r = inr BadAllocNoMemory /\ v' = v /\ refused realloc_ok)).
  Proof.
    intros Hs Hk Hf. unfold it_insert. rewrite index_at. cbn [bind]. apply settle_good.
    - now apply insert_n_good.
    - destruct (shape_len esz esz_pos _ _ Hs) as (Hsz & _). intros v' c' e H. apply insert_n_calls in H; [|lia].
      now rewrite Hsz, (fit_small esz esz_pos _ Hf) in H.
  Qed.
  Lemma insert_list_at v c l k xs : shape (iv v) l -> k <= len l -> fits esz (len l + len xs) = true ->
    exists v' c' r, it_insert_list dflt esz realloc_ok v c (mkVI (iblock v) k) xs = Ret (v', c', r) /\
      ((r = inl (mkVI (iblock v') k) /\ shape (iv v') (take k l ++ xs ++ drop k l) /\
        iblock v' = if len l + len xs <=? valloc (iv v) then iblock v else S (iblock v))
       \/ (r = inr BadAllocNoMemory /\ v' = v /\ refused realloc_ok)).
  Proof.
    intros Hs Hk Hf. unfold it_insert_list. rewrite index_at. cbn [bind]. apply settle_good.
    - now apply insert_list_good.
    - destruct (shape_len esz esz_pos _ _ Hs) as (Hsz & _). intros v' c' e H. apply insert_list_calls in H; [|lia].
      fold (len xs) in H. now rewrite Hsz, (fit_small esz esz_pos _ Hf) in H.
  Qed.

  Lemma erase_run v c l f e : shape (iv v) l ->
    (r <- erase_range dflt esz realloc_ok (iv v) c f e ;; Ret (settle v c r f)) =
      if (e <=? f) || (len l <=? e) then Ret (v, c, inr OutOfRangeVector)
      else (r <- erase_range dflt esz realloc_ok (iv v) c f e ;; Ret (settle v c r f)).
  Proof.
    intros Hs. destruct (shape_len esz esz_pos _ _ Hs) as (Hsz & _). destruct (_ || _) eqn:E; auto.
    rewrite erase_throws; [cbn; now destruct v|]. apply orb_true_iff in E. rewrite Hsz. destruct E as [E|E]; apply N.leb_le in E; auto.
  Qed.
  Lemma erase_range_at v c l f e : shape (iv v) l -> f < e -> e < len l ->
    exists v', (r <- erase_range dflt esz realloc_ok (iv v) c f e ;; Ret (settle v c r f)) = Ret (v', c, inl (mkVI (iblock v) f)) /\
      shape (iv v') (take f l ++ drop e l) /\ iblock v' = iblock v.
  Proof.
    intros Hs H1 H2. destruct (shape_len esz esz_pos _ _ Hs) as (Hsz & Hla & _).
    destruct (erase_good dflt esz realloc_ok esz_pos (iv v) c l f e Hs H1 H2) as [HG (v1 & c1 & HE)].
    assert (Hv : vsize (iv v) <= valloc (iv v)) by lia. pose proof (erase_calls _ _ _ _ _ _ _ Hv HE) as ->.
    destruct HG as (v2 & c2 & e2 & HE2 & [(-> & Hs2 & _)|(-> & _)]); [|congruence]. rewrite HE in HE2. injection HE2 as <- <-.
    rewrite HE. cbn [bind settle]. rewrite Nat.eqb_refl. eexists. split; [reflexivity|]. auto.
  Qed.
  Lemma erase_at_place v c l x a y : shape (iv v) l -> l = x ++ a :: y ->
    it_erase dflt esz realloc_ok v c (mkVI (iblock v) (len x)) =
      match y with [] => Ret (v, c, inr OutOfRangeVector) | _ => it_erase dflt esz realloc_ok v c (mkVI (iblock v) (len x)) end /\
    (y <> [] -> exists v', it_erase dflt esz realloc_ok v c (mkVI (iblock v) (len x)) = Ret (v', c, inl (mkVI (iblock v) (len x))) /\
       shape (iv v') (x ++ y) /\ iblock v' = iblock v).
  Proof.
    intros Hs ->. destruct (shape_len esz esz_pos _ _ Hs) as (Hsz & Hla & Hva & _). change (2^63) with 9223372036854775808 in Hva.
    assert (Hlen : len (x ++ a :: y) = len x + 1 + len y) by (unfold len; rewrite app_length; cbn [length]; lia).
    unfold it_erase. rewrite index_at. cbn [bind]. unfold erase_at. rewrite u64_small by (change (2^64) with 18446744073709551616; lia).
    split.
    - destruct y; auto. rewrite (erase_run v c _ _ _ Hs), Hlen. change (len []) with 0. rewrite (proj2 (N.leb_le (len x + 1 + 0) _)) by lia.
      now rewrite orb_true_r.
    - intros Hy. assert (0 < len y) by (unfold len; destruct y; [congruence|cbn [length]; lia]).
      destruct (erase_range_at v c _ (len x) (len x + 1) Hs) as (v' & HE & Hs' & Hb); [lia|lia|]. exists v'. split; auto. split; auto.
      replace (x ++ y) with (take (len x) (x ++ a :: y) ++ drop (len x + 1) (x ++ a :: y)); auto.
      unfold take, drop, len. f_equal; [apply firstn_len; lia|].
      replace (N.to_nat (N.of_nat (length x) + 1)) with (length (x ++ [a])) by (rewrite app_length; cbn; lia).
      replace (x ++ a :: y) with ((x ++ [a]) ++ y) by (now rewrite <- app_assoc). now apply skipn_len.
  Qed.

  (** ** reading, writing, stepping *)

  Lemma read_at v l k a : shape v l -> nth_error l (N.to_nat k) = Some a -> vread (vdata v) k = Ret a.
  Proof.
    intros Hs Hk. destruct (shape_block esz v l Hs) as (rest & -> & _); [intros ->; now destruct (N.to_nat k)|].
    apply (vread_cells esz esz_pos). rewrite nth_error_app1 by (rewrite map_length; apply nth_error_Some; congruence). now apply map_nth_error.
  Qed.
  Lemma deref_at v l k a : shape (iv v) l -> nth_error l (N.to_nat k) = Some a -> it_deref v (mkVI (iblock v) k) = Ret a.
  Proof. intros Hs Hk. unfold it_deref, it_use. cbn. rewrite Nat.eqb_refl. eapply read_at; eauto. Qed.
  Lemma next_at v l k : shape (iv v) l -> k < len l -> it_next v (mkVI (iblock v) k) = Ret (mkVI (iblock v) (k + 1)).
  Proof.
    intros Hs Hk. unfold it_next, it_use. cbn [vblock voff]. rewrite Nat.eqb_refl.
    destruct (shape_block esz (iv v) l Hs) as (rest & -> & Hr); [intros ->; unfold len in Hk; cbn in Hk; lia|].
    rewrite (proj2 (N.leb_le _ _)); auto. unfold ncells, len in *. rewrite app_length, map_length. lia.
  Qed.
  Lemma eq_at (v : ivec) k k' : it_eq v (mkVI (iblock v) k) (mkVI (iblock v) k') = Ret (k =? k').
  Proof. unfold it_eq, it_use. cbn. now rewrite Nat.eqb_refl. Qed.
  Lemma store_at v x a y b : shape (iv v) (x ++ a :: y) ->
    exists v', it_store v (mkVI (iblock v) (len x)) b = Ret v' /\ shape (iv v') (x ++ b :: y) /\ iblock v' = iblock v.
  Proof.
    intros Hs. unfold it_store, it_use. cbn [vblock voff]. rewrite Nat.eqb_refl.
    destruct (shape_block esz (iv v) _ Hs) as (rest & Hv & Hr); [now destruct x|]. rewrite Hv.
    replace (map Some (x ++ a :: y) ++ rest) with (map Some x ++ [Some a] ++ (map Some y ++ rest)).
    2:{ rewrite map_app, <- app_assoc. reflexivity. }
    rewrite (vwrite_cells esz esz_pos); [|reflexivity|rewrite map_length; unfold len; lia|discriminate]. cbn [bind]. eexists. split; [reflexivity|].
    split; auto. cbn [iv]. eapply (shape_same esz esz_pos); [exact Hs| | |].
    - unfold len. rewrite !app_length. reflexivity.
    - rewrite map_app, <- app_assoc. reflexivity.
    - lia.
  Qed.

  (** ** The loops *)

  Definition stays (p : A -> bool) (a : A) : bool := negb (p a).
  (** what the loop makes of the elements it has still to visit *)
  Fixpoint left_of (p : A -> bool) (l : list A) : list A * option exn :=
    match l with
    | [] => ([], None)
    | a :: l' =>
        if p a then match l' with [] => ([a], Some OutOfRangeVector) | _ => left_of p l' end
        else let (k, e) := left_of p l' in (a :: k, e)
    end.
  Lemma left_of_last p l a : left_of p (l ++ [a]) =
    if p a then (filter (stays p) l ++ [a], Some OutOfRangeVector) else (filter (stays p) (l ++ [a]), None).
  Proof.
    unfold stays. induction l as [|b l IH]; cbn [app left_of filter].
    - destruct (p a); reflexivity.
    - destruct (l ++ [a]) as [|x m] eqn:E; [now destruct l|]. destruct (p b); cbn [negb]; rewrite IH; destruct (p a); reflexivity.
  Qed.

  Lemma len_snoc (x : list A) a : len (x ++ [a]) = len x + 1.
  Proof. unfold len. rewrite app_length. cbn. lia. Qed.
  Lemma nth_here (x : list A) a y : nth_error (x ++ a :: y) (N.to_nat (len x)) = Some a.
  Proof. unfold len. rewrite Nnat.Nat2N.id, nth_error_app2, Nat.sub_diag; auto. Qed.

  Lemma loop_copy p : forall fuel todo don v c, shape (iv v) (don ++ todo) -> (length todo < fuel)%nat ->
    exists v', erase_loop dflt esz realloc_ok it_copy p fuel v c (mkVI (iblock v) (len don)) = Ret (v', c, snd (left_of p todo)) /\
      shape (iv v') (don ++ fst (left_of p todo)) /\ iblock v' = iblock v.
  Proof.
    induction fuel as [|fuel IH]; [lia|]. intros todo don v c Hs Hf.
    destruct (shape_len esz esz_pos _ _ Hs) as (Hsz & _). cbn [erase_loop]. unfold it_end. rewrite eq_at, Hsz. cbn [bind].
    destruct todo as [|a todo].
    - rewrite app_nil_r, N.eqb_refl. exists v. cbn [left_of fst snd]. auto.
    - rewrite (proj2 (N.eqb_neq _ _)) by (unfold len; rewrite app_length; cbn [length]; lia).
      rewrite (deref_at v _ _ a Hs (nth_here don a todo)). cbn [bind left_of]. cbn [length] in Hf. destruct (p a).
      + destruct (erase_at_place v c _ don a todo Hs eq_refl) as [H1 H2]. destruct todo as [|b todo].
        * rewrite H1. cbn [bind fst snd]. exists v. auto.
        * destruct H2 as (v' & H2 & Hs' & Hb); [discriminate|]. rewrite H2. cbn [bind it_copy]. rewrite <- Hb.
          destruct (IH (b :: todo) don v' c Hs') as (v2 & HL & Hs2 & Hb2); [lia|]. exists v2. rewrite HL. auto.
      + assert (Hlt : len don < len (don ++ a :: todo)) by (unfold len; rewrite app_length; cbn [length]; lia).
        rewrite (next_at v _ _ Hs Hlt). cbn [bind]. rewrite <- (len_snoc don a).
        replace (don ++ a :: todo) with ((don ++ [a]) ++ todo) in Hs by (now rewrite <- app_assoc).
        destruct (IH todo (don ++ [a]) v c Hs) as (v2 & HL & Hs2 & Hb2); [lia|]. exists v2. rewrite HL.
        destruct (left_of p todo) as [k e]. cbn [fst snd] in *. rewrite <- app_assoc in Hs2. auto.
  Qed.

  Lemma loop_assign p : forall fuel todo don v c, shape (iv v) (don ++ todo) -> (length todo < fuel)%nat ->
    (forallb (stays p) todo = true -> erase_loop dflt esz realloc_ok it_assign p fuel v c (mkVI (iblock v) (len don)) = Ret (v, c, None)) /\
    (forall x a y, todo = x ++ a :: y -> forallb (stays p) x = true -> p a = true ->
       erase_loop dflt esz realloc_ok it_assign p fuel v c (mkVI (iblock v) (len don)) =
         match y with [] => Ret (v, c, Some OutOfRangeVector) | _ => UB MissingReturn end).
  Proof.
    induction fuel as [|fuel IH]; [lia|]. intros todo don v c Hs Hf.
    destruct (shape_len esz esz_pos _ _ Hs) as (Hsz & _). cbn [erase_loop]. unfold it_end. rewrite eq_at, Hsz. cbn [bind].
    destruct todo as [|b todo].
    - rewrite app_nil_r, N.eqb_refl. split; auto. intros x a y H; now destruct x.
    - rewrite (proj2 (N.eqb_neq _ _)) by (unfold len; rewrite app_length; cbn [length]; lia).
      rewrite (deref_at v _ _ b Hs (nth_here don b todo)). cbn [bind]. cbn [length] in Hf.
      assert (Hlt : len don < len (don ++ b :: todo)) by (unfold len; rewrite app_length; cbn [length]; lia).
      assert (Hs1 := Hs). replace (don ++ b :: todo) with ((don ++ [b]) ++ todo) in Hs1 by (now rewrite <- app_assoc).
      destruct (IH todo (don ++ [b]) v c Hs1) as [I1 I2]; [lia|]. rewrite len_snoc in I1, I2. split.
      + cbn [forallb]. intros H. apply andb_true_iff in H. destruct H as [Hb H]. unfold stays in Hb. destruct (p b); [discriminate|].
        rewrite (next_at v _ _ Hs Hlt). cbn [bind]. auto.
      + intros x a y E Hx Ha. destruct x as [|b' x]; cbn [app] in E; injection E as <- ->.
        * rewrite Ha. destruct (erase_at_place v c _ don b y Hs eq_refl) as [H1 H2]. destruct y as [|b2 y]; [now rewrite H1|].
          destruct H2 as (v' & H2 & _); [discriminate|]. now rewrite H2.
        * cbn [forallb] in Hx. apply andb_true_iff in Hx. destruct Hx as [Hb Hx]. unfold stays in Hb. destruct (p b); [discriminate|].
          rewrite (next_at v _ _ Hs Hlt). cbn [bind]. eauto.
  Qed.

  Lemma loop_change f : forall fuel todo don v, shape (iv v) (don ++ todo) -> (length todo < fuel)%nat ->
    exists v', change_loop f fuel v (mkVI (iblock v) (len don)) (mkVI (iblock v) (len (don ++ todo))) = Ret v' /\
      shape (iv v') (don ++ map f todo) /\ iblock v' = iblock v.
  Proof.
    induction fuel as [|fuel IH]; [lia|]. intros todo don v Hs Hf.
    cbn [change_loop]. rewrite eq_at. cbn [bind]. destruct todo as [|b todo].
    - rewrite app_nil_r, N.eqb_refl. exists v. rewrite app_nil_r in Hs. cbn [map]. rewrite app_nil_r. auto.
    - rewrite (proj2 (N.eqb_neq _ _)) by (unfold len; rewrite app_length; cbn [length]; lia).
      rewrite (deref_at v _ _ b Hs (nth_here don b todo)). cbn [bind]. cbn [length] in Hf.
      destruct (store_at v don b todo (f b) Hs) as (v1 & -> & Hs1 & Hb1). cbn [bind]. rewrite <- Hb1.
      assert (Hlt : len don < len (don ++ f b :: todo)) by (unfold len; rewrite app_length; cbn [length]; lia).
      rewrite (next_at v1 _ _ Hs1 Hlt). cbn [bind].
      replace (don ++ f b :: todo) with ((don ++ [f b]) ++ todo) in Hs1 by (now rewrite <- app_assoc).
      destruct (IH todo (don ++ [f b]) v1 Hs1) as (v2 & HL & Hs2 & Hb2); [lia|].
      replace (len ((don ++ [f b]) ++ todo)) with (len (don ++ b :: todo)) in HL by (unfold len; rewrite !app_length; cbn [length]; lia).
      rewrite len_snoc in HL. exists v2. split; auto. rewrite <- app_assoc in Hs2. auto.
  Qed.
End Proof.
