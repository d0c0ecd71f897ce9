(** Programs with iterators: proofs about VecIterModel.v. *)
From Verif Require Import Base VectorSpec VectorModel VectorProof VectorProof2 VectorOwn VecIterOps VecIterModel VecIterProof.
From Coq Require Import List Arith NArith Bool Lia.
Import ListNotations.
Local Open Scope N_scope.

Section Proof.
  Context {A : Type}.
  Variable dflt : A.
  Variable esz : N.
  Variable realloc_ok : nat -> N -> bool.
  Hypothesis esz_pos : 0 < esz.

  Notation ivec := (ivec A).
  Notation shape := (shape (A:=A) esz).

  (** ** The capacity *)

  Definition alloc_to (a n : N) : N := if n <=? a then a else n.

  Lemma reserve_alloc v c n v' c' : reserve (A:=A) esz realloc_ok v c n = Ret (v', c', None) -> valloc v' = alloc_to (valloc v) n.
  Proof.
    unfold reserve, alloc_to. destruct (n <=? valloc v); [now intros [= <- _]|]. intros H. apply bind_ret in H. destruct H as (t & _ & H).
    destruct (vdata v); [| |].
    - destruct (realloc_ok c _); now injection H as <- _.
    - discriminate.
    - destruct (_ =? 0); [discriminate|]. destruct (realloc_ok c _); now injection H as <- _.
  Qed.
  Lemma resize_alloc v c n v' c' : resize dflt esz realloc_ok v c n = Ret (v', c', None) -> valloc v' = alloc_to (valloc v) n.
  Proof.
    unfold resize, resize_with. intros H. apply andthen_ret in H. destruct H as (v1 & c1 & e1 & H1 & H2).
    destruct e1; [discriminate|]. apply reserve_alloc in H1. destruct (vsize v1 <? n).
    - apply bind_ret in H2. destruct H2 as (a & _ & H2). apply bind_ret in H2. destruct H2 as (p & _ & H2). now injection H2 as <- _.
    - now injection H2 as <- _.
  Qed.
  Ltac after H := repeat (match type of H with bind _ _ = Ret _ => apply bind_ret in H; destruct H as (? & _ & H) end).
  Lemma insert_n_alloc v c k n x v' c' : k <= vsize v -> insert_n dflt esz realloc_ok v c k n x = Ret (v', c', None) ->
    valloc v' = alloc_to (valloc v) (u64 (vsize v + n)).
  Proof.
    intros Hk. unfold insert_n. rewrite (proj2 (N.ltb_ge _ _) Hk). intros H. apply andthen_ret in H. destruct H as (v1 & c1 & e1 & H1 & H2).
    destruct e1; [discriminate|]. apply resize_alloc in H1. destruct (_ <? _); [discriminate|]. after H2.
    destruct (n =? 0); [now injection H2 as <- _|]. after H2. now injection H2 as <- _.
  Qed.
  Lemma insert_list_alloc v c k l v' c' : k <= vsize v -> insert_list dflt esz realloc_ok v c k l = Ret (v', c', None) ->
    valloc v' = alloc_to (valloc v) (u64 (vsize v + N.of_nat (length l))).
  Proof.
    intros Hk. unfold insert_list. rewrite (proj2 (N.ltb_ge _ _) Hk). intros H. apply andthen_ret in H. destruct H as (v1 & c1 & e1 & H1 & H2).
    destruct e1; [discriminate|]. apply resize_alloc in H1. destruct (_ <? _); [discriminate|]. after H2. now injection H2 as <- _.
  Qed.
  Lemma push_alloc v c x v' c' : push_back (A:=A) esz realloc_ok v c x = Ret (v', c', None) -> valloc v' = alloc_to (valloc v) (u64 (vsize v + 1)).
  Proof.
    unfold push_back. intros H. apply andthen_ret in H. destruct H as (v1 & c1 & e1 & H1 & H2).
    destruct e1; [discriminate|]. apply reserve_alloc in H1. after H2. now injection H2 as <- _.
  Qed.
  Lemma push_calls v c x v' c' e : push_back (A:=A) esz realloc_ok v c x = Ret (v', c', e) -> c' = calls_to c (u64 (vsize v + 1) <=? valloc v).
  Proof.
    unfold push_back. intros H. apply andthen_ret in H. destruct H as (v1 & c1 & e1 & H1 & H2).
    apply reserve_calls in H1. destruct e1; [injection H2 as _ -> _; auto|]. after H2. now injection H2 as _ <- _.
  Qed.
  Lemma erase_alloc v c f e v' c' : vsize v <= valloc v -> erase_range dflt esz realloc_ok v c f e = Ret (v', c', None) -> valloc v' = valloc v.
  Proof.
    intros Hv. unfold erase_range. destruct (_ || _); [discriminate|]. intros H. apply bind_ret in H. destruct H as (p & _ & H).
    apply resize_alloc in H. cbn [valloc] in H. unfold alloc_to in H. rewrite (proj2 (N.leb_le _ _)) in H by lia. exact H.
  Qed.
  (** a call that does not exceed the capacity is not refused *)
  Lemma reserve_quiet v c n v' c' e : n <= valloc v -> reserve (A:=A) esz realloc_ok v c n = Ret (v', c', Some e) -> False.
  Proof. unfold reserve. intros H. rewrite (proj2 (N.leb_le _ _) H). discriminate. Qed.
  Lemma resize_quiet v c n v' c' e : n <= valloc v -> resize dflt esz realloc_ok v c n = Ret (v', c', Some e) -> False.
  Proof.
    unfold resize, resize_with. intros Hn H. apply andthen_ret in H. destruct H as (v1 & c1 & e1 & H1 & H2).
    destruct e1; [eapply reserve_quiet; eauto|]. destruct (vsize v1 <? n); [|discriminate]. after H2. discriminate.
  Qed.
  Lemma insert_n_quiet v c k n x v' c' e : k <= vsize v -> u64 (vsize v + n) <= valloc v ->
    insert_n dflt esz realloc_ok v c k n x = Ret (v', c', Some e) -> False.
  Proof.
    intros Hk Hn. unfold insert_n. rewrite (proj2 (N.ltb_ge _ _) Hk). intros H. apply andthen_ret in H. destruct H as (v1 & c1 & e1 & H1 & H2).
    destruct e1; [eapply resize_quiet; eauto|]. destruct (_ <? _); [discriminate|]. after H2. destruct (n =? 0); [discriminate|]. after H2. discriminate.
  Qed.
  Lemma insert_list_quiet v c k l v' c' e : k <= vsize v -> u64 (vsize v + N.of_nat (length l)) <= valloc v ->
    insert_list dflt esz realloc_ok v c k l = Ret (v', c', Some e) -> False.
  Proof.
    intros Hk Hn. unfold insert_list. rewrite (proj2 (N.ltb_ge _ _) Hk). intros H. apply andthen_ret in H. destruct H as (v1 & c1 & e1 & H1 & H2).
    destruct e1; [eapply resize_quiet; eauto|]. destruct (_ <? _); [discriminate|]. after H2. discriminate.
  Qed.
  Lemma push_quiet v c x v' c' e : u64 (vsize v + 1) <= valloc v -> push_back (A:=A) esz realloc_ok v c x = Ret (v', c', Some e) -> False.
  Proof.
    unfold push_back. intros Hn H. apply andthen_ret in H. destruct H as (v1 & c1 & e1 & H1 & H2).
    destruct e1; [eapply reserve_quiet; eauto|]. after H2. discriminate.
  Qed.

  (** ** The relation *)

  Definition stands (v : ivec) (it : viter) (k : option N) : Prop :=
    match k with
    | Some k => it = mkVI (iblock v) k
    | None => (vblock it < iblock v)%nat
    end.
  Definition agrees (s : istate A) (p : places A) : Prop :=
    shape (iv (st_v s)) (items p) /\ valloc (iv (st_v s)) = room p /\ Forall2 (stands (st_v s)) (st_its s) (pos p).

  Lemma stands_same v v' it k : iblock v' = iblock v -> stands v it k -> stands v' it k.
  Proof. unfold stands. intros ->. auto. Qed.
  Lemma stands_lost v v' it k : iblock v' = S (iblock v) -> stands v it k -> stands v' it None.
  Proof. unfold stands. intros ->. destruct k; [intros ->; cbn; lia|lia]. Qed.
  Lemma all_same v v' its ks : iblock v' = iblock v -> Forall2 (stands v) its ks -> Forall2 (stands v') its ks.
  Proof. intros H. induction 1; constructor; auto. eapply stands_same; eauto. Qed.
  Lemma all_lost v v' its ks : iblock v' = S (iblock v) -> Forall2 (stands v) its ks -> Forall2 (stands v') its (map (fun _ => None) ks).
  Proof. intros H. induction 1; cbn; constructor; auto. eapply stands_lost; eauto. Qed.

  Lemma get_pos s p j k : agrees s p -> pos_of p j = Some k -> get_it s j = Ret (mkVI (iblock (st_v s)) k).
  Proof.
    intros (_ & _ & HF) Hp. unfold pos_of, get_it in *. revert j Hp. generalize (pos p) (st_its s) HF. clear. intros ks its HF.
    induction HF as [|it k0 its ks H1 HF IH]; intros [|j] Hp; cbn in *; try discriminate; auto.
    destruct k0; [|discriminate]. injection Hp as ->. now rewrite H1.
  Qed.
  Lemma new_agrees s p k : agrees s p -> agrees (new_it s (mkVI (iblock (st_v s)) k)) (with_pos p (Some k)).
  Proof. intros (H1 & H2 & H3). split; [exact H1|]. split; [exact H2|]. cbn. apply Forall2_app; auto. constructor; auto. reflexivity. Qed.
  Lemma set_agrees s p j k : agrees s p -> agrees (set_it s j (mkVI (iblock (st_v s)) k)) (to_pos p j k).
  Proof.
    intros (H1 & H2 & H3). split; [exact H1|]. split; [exact H2|]. cbn [set_it st_its st_v to_pos pos]. revert j. generalize H3. clear.
    induction 1 as [|it k0 its ks H1 HF IH]; intros [|j]; cbn; constructor; auto. reflexivity.
  Qed.

  (** the state after a call that may have reallocated *)
  Lemma grown_agrees s p v' b l' n c' : agrees s p -> shape v' l' -> valloc v' = alloc_to (valloc (iv (st_v s))) n ->
    b = (if n <=? valloc (iv (st_v s)) then iblock (st_v s) else S (iblock (st_v s))) ->
    agrees (mkIS (mkIV v' b) c' (st_its s)) (grown p l' n).
  Proof.
    intros (H1 & H2 & H3) Hs Ha ->. unfold grown. rewrite H2 in *. unfold alloc_to in Ha. destruct (n <=? room p); (split; [exact Hs|]); (split; [exact Ha|]); cbn.
    - eapply all_same; [|exact H3]. reflexivity.
    - eapply all_lost; [|exact H3]. reflexivity.
  Qed.
  Lemma settle_block v c r k v' c' e fit n : r = (v', c', e) -> c' = calls_to c fit -> fit = (n <=? valloc (iv v)) ->
    settle (A:=A) v c r k =
      match e with
      | None => let b := if n <=? valloc (iv v) then iblock v else S (iblock v) in (mkIV v' b, c', inl (mkVI b k))
      | Some e => (mkIV v' (iblock v), c', inr e)
      end.
  Proof.
    intros -> -> ->. unfold settle, calls_to. destruct e; auto. destruct (n <=? _); [now rewrite Nat.eqb_refl|].
    rewrite (proj2 (Nat.eqb_neq _ _)); auto.
  Qed.

  (** what a call does *)
  Definition done (s : istate A) (p : places A) (o : iop A) (p' : places A) (a : ianswer A) : Prop :=
    exists s' a', istep dflt esz realloc_ok s o = Ret (s', a') /\
      ((a' = a /\ agrees s' p') \/ (a' = IThrow BadAllocNoMemory /\ agrees s' p /\ room p < needs p o /\ refused realloc_ok)).

  Lemma call_done s p m l' n (iter : option N) : agrees s p ->
    good esz realloc_ok m (iv (st_v s)) l' 0 ->
    (forall v' c' e, m = Ret (v', c', e) -> c' = calls_to (st_c s) (n <=? valloc (iv (st_v s)))) ->
    (forall v' c', m = Ret (v', c', None) -> valloc v' = alloc_to (valloc (iv (st_v s))) n) ->
    (forall v' c' e, n <= valloc (iv (st_v s)) -> m = Ret (v', c', Some e) -> False) ->
    exists s' a', (match iter with
                   | Some k => r <- m ;; Ret (after_it s (settle (st_v s) (st_c s) r k))
                   | None => r <- m ;; Ret (after s r)
                   end) = Ret (s', a') /\
      ((a' = IUnit /\ agrees s' match iter with Some k => with_pos (grown p l' n) (Some k) | None => grown p l' n end)
       \/ (a' = IThrow BadAllocNoMemory /\ agrees s' p /\ room p < n /\ refused realloc_ok)).
  Proof.
    intros HA (v1 & c1 & e1 & -> & HG) Hc Ha Hq. specialize (Hc _ _ _ eq_refl). cbn [bind].
    pose proof HA as (H1 & H2 & H3).
    destruct HG as [(-> & Hs & _)|(-> & -> & Href)].
    - specialize (Ha _ _ eq_refl). destruct iter as [k|]; unfold after;
        rewrite (settle_block _ _ _ _ _ _ _ _ n eq_refl Hc eq_refl); cbn zeta; cbn [after_it]; eexists _, _; (split; [reflexivity|]); left; (split; [reflexivity|]).
      + pose proof (grown_agrees s p v1 _ l' n c1 HA Hs Ha eq_refl) as HG.
        exact (new_agrees (mkIS (mkIV v1 _) c1 (st_its s)) (grown p l' n) k HG).
      + exact (grown_agrees s p v1 _ l' n c1 HA Hs Ha eq_refl).
    - assert (Hlt : room p < n). { rewrite <- H2. destruct (N.leb_spec n (valloc (iv (st_v s)))) as [H|H]; auto. elim (Hq _ _ _ H eq_refl). }
      destruct iter as [k|]; unfold after; cbn [settle after_it]; eexists _, _; (split; [reflexivity|]); right; (split; [reflexivity|]); (split; [|split; [exact Hlt|exact Href]]);
        split; auto.
  Qed.

  Ltac ok := eexists _, _; split; [reflexivity|]; left; split; [reflexivity|].

  Lemma with_shape s p v' c' l' : agrees s p -> shape v' l' -> valloc v' = valloc (iv (st_v s)) ->
    agrees (mkIS (mkIV v' (iblock (st_v s))) c' (st_its s)) (mkPl l' (room p) (pos p)).
  Proof. intros (H1 & H2 & H3) Hs Ha. split; [exact Hs|]. split; [cbn; congruence|]. eapply all_same; [|exact H3]. reflexivity. Qed.

  Lemma erase_done s p f e : agrees s p -> f < e -> e < len (items p) ->
    exists s', (r <- erase_range dflt esz realloc_ok (iv (st_v s)) (st_c s) f e ;; Ret (after_it s (settle (st_v s) (st_c s) r f))) = Ret (s', IUnit) /\
      agrees s' (with_pos (mkPl (take f (items p) ++ drop e (items p)) (room p) (pos p)) (Some f)).
  Proof.
    intros HA H1 H2. pose proof HA as (Hs & Hr & HF). destruct (shape_len esz esz_pos _ _ Hs) as (Hsz & Hla & _).
    destruct (erase_good dflt esz realloc_ok esz_pos (iv (st_v s)) (st_c s) _ f e Hs H1 H2) as [HG (v1 & c1 & HE)].
    assert (Hv : vsize (iv (st_v s)) <= valloc (iv (st_v s))) by lia.
    pose proof HE as Hc. apply erase_calls in Hc; [|assumption..]. subst c1. pose proof (erase_alloc _ _ _ _ _ _ Hv HE) as Ha.
    destruct HG as (v2 & c2 & e2 & HE2 & HG). rewrite HE in HE2. injection HE2 as <- <- <-.
    destruct HG as [(_ & Hs1 & _)|(HX & _)]; [|discriminate]. rewrite HE. cbn [bind settle after_it]. rewrite Nat.eqb_refl.
    eexists. split; [reflexivity|].
    exact (new_agrees (mkIS (mkIV v1 (iblock (st_v s))) (st_c s) (st_its s)) (mkPl _ (room p) (pos p)) f (with_shape s p v1 _ _ HA Hs1 Ha)).
  Qed.
  Lemma erase_refuse s f e : e <= f \/ vsize (iv (st_v s)) <= e ->
    (r <- erase_range dflt esz realloc_ok (iv (st_v s)) (st_c s) f e ;; Ret (after_it s (settle (st_v s) (st_c s) r f))) = Ret (s, IThrow OutOfRangeVector).
  Proof. intros H. rewrite erase_throws by auto. cbn. destruct s as [[v b] c its]; reflexivity. Qed.

  Lemma bind_after {B} (m : outcome B) (g : B -> ivec * nat * (viter + exn)) (s : istate A) :
    (r <- (r <- m ;; Ret (g r)) ;; Ret (after_it s r)) = (r <- m ;; Ret (after_it s (g r))).
  Proof. now destruct m. Qed.

  Lemma step_done s p o p' a : agrees s p -> ispec dflt esz p o = Some (p', a) -> done s p o p' a.
  Proof.
    intros HA Hsp. pose proof HA as (Hs & Hr & HF). destruct (shape_len esz esz_pos _ _ Hs) as (Hsz & Hla & Hva & Hve).
    change (2^63) with 9223372036854775808 in Hva.
    assert (Hu : forall n, fits esz n = true -> u64 n = n).
    { intros n Hf. apply u64_small. unfold fits in Hf. apply N.ltb_lt in Hf. change (2^63) with 9223372036854775808 in Hf.
      change (2^64) with 18446744073709551616. nia. }
    unfold done, istep. destruct o; cbn [ispec needs] in *;
      repeat (match type of Hsp with
        | match pos_of p ?j with _ => _ end = _ =>
            let k := fresh "k" in let Hp := fresh "Hp" in
            destruct (pos_of p j) as [k|] eqn:Hp; [rewrite (get_pos s p j _ HA Hp); cbn [bind]|discriminate]
        end).
    - injection Hsp as <- <-. ok. now apply new_agrees.
    - injection Hsp as <- <-. ok. unfold it_end. rewrite Hsz. now apply new_agrees.
    - injection Hsp as <- <-. ok. now apply new_agrees.
    - destruct (N.ltb_spec k (len (items p))); [|discriminate]. injection Hsp as <- <-.
      rewrite (next_at _ esz_pos _ _ _ Hs) by auto. ok. now apply set_agrees.
    - destruct (N.ltb_spec 0 k) as [H|H]; [|discriminate]. injection Hsp as <- <-. unfold it_prev, it_use. cbn [vblock voff].
      rewrite Nat.eqb_refl, (proj2 (N.eqb_neq k 0)) by lia. ok. now apply set_agrees.
    - destruct (nth_error _ _) eqn:E; [|discriminate]. injection Hsp as <- <-. rewrite (deref_at _ esz_pos _ _ _ _ Hs E). ok. exact HA.
    - destruct (N.ltb_spec k (len (items p))) as [H|H]; [|discriminate]. injection Hsp as <- <-.
      destruct (nth_error (items p) (N.to_nat k)) as [b|] eqn:E; [|apply nth_error_None in E; unfold len in H; lia].
      apply nth_error_split in E. destruct E as (x & y & Hxy & Hx). assert (Hk : k = len x) by (unfold len; lia).
      rewrite Hxy in Hs. destruct (store_at _ esz_pos _ x b y a0 Hs) as (v' & H1 & H2 & H3). rewrite Hk, H1. cbn [bind]. ok.
      assert (Hset : set_nth (items p) (N.to_nat (len x)) a0 = x ++ a0 :: y).
      { rewrite Hxy. unfold len. rewrite Nnat.Nat2N.id. clear. induction x; cbn; congruence. }
      rewrite Hset. split; [exact H2|]. split; [|eapply all_same; [|exact HF]; exact H3]. cbn [st_v room]. rewrite <- Hr.
      unfold it_store, it_use in H1. cbn [vblock voff] in H1. rewrite Nat.eqb_refl in H1. apply bind_ret in H1. destruct H1 as (q & _ & H1).
      now injection H1 as <-.
    - injection Hsp as <- <-. rewrite eq_at. ok. exact HA.
    - injection Hsp as <- <-. rewrite index_at. ok. exact HA.
    - destruct (N.leb_spec k (len (items p))) as [H|H]; [|discriminate]. cbn [andb] in Hsp. destruct (fits esz _) eqn:Hf; [|discriminate].
      injection Hsp as <- <-. unfold it_insert. rewrite index_at. cbn [bind]. rewrite bind_after.
      apply (call_done s p _ _ _ (Some k) HA).
      + now apply insert_n_good.
      + intros v' c' e HE. apply insert_n_calls in HE; [|lia..]. now rewrite Hsz, Hu in HE.
      + intros v' c' HE. apply insert_n_alloc in HE; [|lia]. now rewrite Hsz, Hu in HE.
      + intros v' c' e Hn HE. eapply insert_n_quiet; [| |exact HE]; [lia|]. now rewrite Hsz, Hu.
    - destruct (N.leb_spec k (len (items p))) as [H|H]; [|discriminate]. cbn [andb] in Hsp. destruct (fits esz _) eqn:Hf; [|discriminate].
      injection Hsp as <- <-. unfold it_insert_list. rewrite index_at. cbn [bind]. rewrite bind_after.
      apply (call_done s p _ _ _ (Some k) HA).
      + now apply insert_list_good.
      + intros v' c' e HE. apply insert_list_calls in HE; [|lia..]. unfold len in Hf. now rewrite Hsz, Hu in HE.
      + intros v' c' HE. apply insert_list_alloc in HE; [|lia]. unfold len in Hf. now rewrite Hsz, Hu in HE.
      + intros v' c' e Hn HE. eapply insert_list_quiet; [| |exact HE]; [lia|]. unfold len in Hf. now rewrite Hsz, Hu.
    - destruct (N.ltb_spec k (len (items p))) as [H|H]; [|discriminate]. unfold it_erase, erase_at. rewrite index_at. cbn [bind]. rewrite bind_after.
      rewrite u64_small by (change (2^64) with 18446744073709551616; lia).
      destruct (N.ltb_spec (k + 1) (len (items p))) as [H'|H']; injection Hsp as <- <-.
      + destruct (erase_done s p k (k + 1) HA) as (s' & -> & HA'); [lia|lia|]. ok. exact HA'.
      + rewrite erase_refuse by (right; lia). ok. exact HA.
    - destruct (N.leb_spec k k0) as [H|H]; [|discriminate]. destruct (N.leb_spec k0 (len (items p))) as [H0|H0]; [|discriminate]. cbn [andb] in Hsp.
      unfold it_erase_range. rewrite !index_at. cbn [bind]. rewrite bind_after.
      destruct (N.ltb_spec k k0) as [H'|H']; [destruct (N.ltb_spec k0 (len (items p))) as [H''|H'']|]; cbn [andb] in Hsp; injection Hsp as <- <-.
      + destruct (erase_done s p k k0 HA) as (s' & -> & HA'); [lia|lia|]. ok. exact HA'.
      + rewrite erase_refuse by (right; lia). ok. exact HA.
      + rewrite erase_refuse by (left; lia). ok. exact HA.
    - destruct (fits esz _) eqn:Hf; [|discriminate]. injection Hsp as <- <-. apply (call_done s p _ _ _ None HA).
      + destruct (push_back_good esz realloc_ok esz_pos (iv (st_v s)) (st_c s) _ a0 Hs Hf) as (v1 & c1 & e1 & H1 & H2). exists v1, c1, e1. split; auto.
        destruct H2 as [(H2 & H3 & _)|H2]; [left|right]; auto. split; auto. split; auto. lia.
      + intros v' c' e HE. apply push_calls in HE. now rewrite Hsz, Hu in HE.
      + intros v' c' HE. apply push_alloc in HE. now rewrite Hsz, Hu in HE.
      + intros v' c' e Hn HE. eapply push_quiet; [|exact HE]. now rewrite Hsz, Hu.
    - destruct (rev (items p)) as [|x l2] eqn:E; [discriminate|]. injection Hsp as <- <-. apply rev_last in E.
      assert (Hlen : len (items p) = len (rev l2) + 1) by (rewrite E; unfold len; rewrite app_length; cbn [length]; lia).
      unfold pop_back. rewrite Hsz; rewrite (sub64_pred esz esz_pos) by (change (2^63) with 9223372036854775808; lia).
      rewrite (read_at _ esz_pos _ _ _ x Hs).
      2:{ rewrite Hlen, E. rewrite nth_error_app2; unfold len; [|lia].
          replace (N.to_nat (N.of_nat (length (rev l2)) + 1 - 1) - length (rev l2))%nat with 0%nat by lia. reflexivity. }
      cbn [bind]. ok. apply with_shape; auto. rewrite Hlen. replace (len (rev l2) + 1 - 1) with (len (rev l2)) by lia.
      destruct Hs as (_ & Hs2 & [(_ & Hs3 & _)|(rest & Hs3 & Hs4)]).
      + rewrite Hs3 in E. now destruct (rev l2).
      + split; [reflexivity|]. split; [exact Hs2|]. right. exists (Some x :: rest). cbn [vdata valloc]. split.
        * rewrite Hs3, E, map_app, <- app_assoc. reflexivity.
        * cbn [length]. lia.
    - destruct (fits esz _) eqn:Hf; [|discriminate]. injection Hsp as <- <-. apply (call_done s p _ _ _ None HA).
      + destruct (resize_good dflt esz realloc_ok esz_pos (iv (st_v s)) (st_c s) _ n Hs Hf) as (v1 & c1 & e1 & H1 & H2). exists v1, c1, e1. split; auto.
        destruct H2 as [(H2 & H3 & _)|H2]; [left|right]; auto. split; auto. split; auto. lia.
      + intros v' c' e HE. now apply resize_calls in HE.
      + intros v' c' HE. now apply resize_alloc in HE.
      + intros v' c' e Hn HE. eapply resize_quiet; [|exact HE]. exact Hn.
    - destruct (fits esz _) eqn:Hf; [|discriminate]. injection Hsp as <- <-. apply (call_done s p _ _ _ None HA).
      + destruct (reserve_good esz realloc_ok esz_pos (iv (st_v s)) (st_c s) _ n Hs Hf) as (v1 & c1 & e1 & H1 & H2). exists v1, c1, e1. split; auto.
        destruct H2 as [(H2 & H3 & _)|H2]; [left|right]; auto. split; auto. split; auto. lia.
      + intros v' c' e HE. now apply reserve_calls in HE.
      + intros v' c' HE. now apply reserve_alloc in HE.
      + intros v' c' e Hn HE. eapply reserve_quiet; [|exact HE]. exact Hn.
    - injection Hsp as <- <-. assert (HC : vclear (iv (st_v s)) = Ret (mkV Null 0 0)).
      { unfold vclear. destruct Hs as (_ & _ & [(-> & _)|(rest & -> & _)]); reflexivity. }
      rewrite HC. cbn [bind]. ok. split; [|split; [reflexivity|]].
      + split; [reflexivity|]. split; [reflexivity|]. left. auto.
      + eapply all_lost; [|exact HF]. reflexivity.
  Qed.

  (** ** Programs *)

  Lemma spec_nomem p o p1 : ispec dflt esz p o = Some (p1, IThrow BadAllocNoMemory) -> False.
  Proof. intros H. destruct o; cbn [ispec] in H; repeat (match type of H with match ?x with _ => _ end = _ => destruct x end); discriminate. Qed.

  Lemma run_done l : forall s p, agrees s p -> exists l1 l2 s' ans p', l = l1 ++ l2 /\
    irun dflt esz realloc_ok s l1 = Ret (s', ans) /\ iexec dflt esz p l1 ans p' /\ agrees s' p' /\
    (In (IThrow BadAllocNoMemory) ans -> refused realloc_ok) /\
    (l2 = [] \/ exists o l3, l2 = o :: l3 /\ ispec dflt esz p' o = None).
  Proof.
    induction l as [|o l IH]; intros s p HA.
    - exists [], [], s, [], p. split; auto. split; [reflexivity|]. split; [constructor|]. split; auto. split; [intros []|]. auto.
    - destruct (ispec dflt esz p o) as [[p1 a]|] eqn:E.
      2:{ exists [], (o :: l), s, [], p. split; auto. split; [reflexivity|]. split; [constructor|]. split; auto. split; [intros []|]. right. eauto. }
      destruct (step_done s p o p1 a HA E) as (s1 & a' & H1 & [(-> & H2)|(-> & H2 & H3 & Href)]).
      + destruct (IH s1 p1 H2) as (l1 & l2 & s' & ans & p' & -> & H4 & H5 & H6 & H8 & H7). exists (o :: l1), l2, s', (a :: ans), p'.
        split; auto. split; [cbn [irun]; rewrite H1; cbn [bind]; rewrite H4; reflexivity|]. split; [econstructor; eauto|]. split; auto. split; auto.
        intros [Hi|Hi]; auto. subst a. elim (spec_nomem p o p1 E).
      + destruct (IH s1 p H2) as (l1 & l2 & s' & ans & p' & -> & H4 & H5 & H6 & H8 & H7). exists (o :: l1), l2, s', (IThrow BadAllocNoMemory :: ans), p'.
        split; auto. split; [cbn [irun]; rewrite H1; cbn [bind]; rewrite H4; reflexivity|]. split; [apply iexec_nomem; auto; congruence|]. auto 10.
  Qed.
  Lemma start_agrees : agrees (istart (A:=A)) places0.
  Proof. split; [|split; [reflexivity|constructor]]. split; [reflexivity|]. split; [reflexivity|]. left. auto. Qed.

  (** ** Lost iterators *)

  Definition uses (o : iop A) (j : nat) : Prop := o = IGet j \/ (exists a, o = ISet j a) \/ o = INext j \/ o = IPrev j.
  (** no call of the spec answers that there is no memory *)
  Lemma ispec_mem p o p' a : ispec dflt esz p o = Some (p', a) -> a <> IThrow BadAllocNoMemory.
  Proof.
    intros H. destruct o; cbn [ispec] in H;
      repeat match type of H with
        | match ?e with _ => _ end = _ => destruct e; try discriminate H
        end; injection H as <- <-; discriminate.
  Qed.

  (** a run and the answers of the spec: where they lead *)
  Lemma run_agrees l : forall s p s' ans p', agrees s p -> irun dflt esz realloc_ok s l = Ret (s', ans) -> iexec dflt esz p l ans p' -> agrees s' p'.
  Proof.
    induction l as [|o l IH]; intros s p s' ans p' HA Hr Hx; cbn [irun] in Hr.
    - injection Hr as <- <-. inversion Hx; subst. exact HA.
    - destruct (ispec dflt esz p o) as [[p1 a]|] eqn:E; [|inversion Hx; subst; congruence].
      destruct (step_done s p o p1 a HA E) as (s1 & a' & H1 & H2). rewrite H1 in Hr. cbn [bind] in Hr.
      destruct (irun dflt esz realloc_ok s1 l) as [[s2 ans2]| | | |] eqn:E2; cbn [bind] in Hr; try discriminate. injection Hr as <- <-.
      pose proof (ispec_mem _ _ _ _ E) as Hm.
      destruct H2 as [(-> & H2)|(-> & H2 & H3 & _)]; inversion Hx; subst; try congruence.
      + match goal with H : ispec _ _ _ _ = Some (?q, _) |- _ => lazymatch q with p1 => fail | _ => assert (q = p1) by congruence; subst q end end. eapply IH; eauto.
      + eapply IH; eauto.
  Qed.

  Lemma lost_use s p o j : agrees s p -> nth_error (pos p) j = Some None -> uses o j -> istep dflt esz realloc_ok s o = UB DeadObject.
  Proof.
    intros (_ & _ & HF) Hj Hu. assert (H : exists it, get_it s j = Ret it /\ (vblock it < iblock (st_v s))%nat).
    { unfold get_it. clear Hu. revert j Hj. generalize HF. clear. intros HF. generalize (st_v s) HF. clear HF. intros v HF.
      induction HF as [|it k0 its ks H1 HF IH]; intros [|j] Hp; cbn in *; try discriminate; auto. injection Hp as ->. eauto. }
    destruct H as (it & H1 & H2).
    destruct Hu as [Hu|[(a & Hu)|[Hu|Hu]]]; subst o; cbn [istep]; rewrite H1; cbn [bind];
      unfold it_deref, it_store, it_next, it_prev, it_use; rewrite (proj2 (Nat.eqb_neq _ _)) by lia; reflexivity.
  Qed.
End Proof.

(** ** Moving on and on *)
Lemma run_app {A} (dflt : A) esz realloc_ok l l' : forall s s' ans u, irun dflt esz realloc_ok s l = Ret (s', ans) ->
  irun dflt esz realloc_ok s' l' = UB u -> irun dflt esz realloc_ok s (l ++ l') = UB u.
Proof.
  induction l as [|o l IH]; intros s s' ans u Hr Hu; cbn [app irun] in *.
  - injection Hr as -> _. exact Hu.
  - destruct (istep dflt esz realloc_ok s o) as [[s1 a]| | | |]; cbn [bind] in *; try discriminate.
    destruct (irun dflt esz realloc_ok s1 l) as [[s2 as_]| | | |] eqn:E; cbn [bind] in *; try discriminate.
    injection Hr as -> _. now rewrite (IH _ _ _ _ E Hu).
Qed.
Lemma set_again {B} (l : list B) : forall j (b : B), nth_error l j <> None -> nth_error (set_nth l j b) j = Some b.
Proof. induction l as [|x l IH]; intros [|j] b H; cbn in *; try congruence; auto. Qed.
Lemma on_block {A} (dflt : A) esz realloc_ok j cs n : forall s k, get_it s j = Ret (mkVI (iblock (st_v s)) k) -> vdata (iv (st_v s)) = Block cs ->
  (length cs - N.to_nat k < n)%nat -> exists m, irun dflt esz realloc_ok s (repeat (INext j) m) = UB OutOfBounds.
Proof.
  induction n as [|n IH]; intros s k Hg Hd Hn; [lia|].
  destruct (k + 1 <=? ncells cs) eqn:E.
  - destruct (IH (set_it s j (mkVI (iblock (st_v s)) (k + 1))) (k + 1)) as (m & Hm).
    + unfold get_it, set_it in *. cbn [st_its st_v]. rewrite set_again; auto. destruct (nth_error (st_its s) j); congruence.
    + exact Hd.
    + apply N.leb_le in E. unfold ncells in E. lia.
    + exists (S m). cbn [repeat irun istep]. rewrite Hg. cbn [bind]. unfold it_next, it_use. cbn [vblock voff]. rewrite Nat.eqb_refl, Hd, E.
      cbn [bind]. now rewrite Hm.
  - exists 1%nat. cbn [repeat irun istep]. rewrite Hg. cbn [bind]. unfold it_next, it_use. cbn [vblock voff]. rewrite Nat.eqb_refl, Hd, E. reflexivity.
Qed.
Lemma on_and_on A (dflt : A) esz realloc_ok : 0 < esz ->
  forall program s answers p j k, irun dflt esz realloc_ok istart program = Ret (s, answers) -> iexec dflt esz places0 program answers p ->
    nth_error (pos p) j = Some (Some k) ->
    exists m u, irun dflt esz realloc_ok istart (program ++ repeat (INext j) m) = UB u.
Proof.
  intros He program s answers p j k Hr Hx Hj.
  pose proof (run_agrees dflt esz realloc_ok He _ _ _ _ _ _ (start_agrees esz) Hr Hx) as HA.
  assert (Hp : pos_of p j = Some k) by (unfold pos_of; now rewrite Hj).
  pose proof (get_pos esz s p j _ HA Hp) as Hg. destruct HA as ((_ & _ & Hs) & _).
  destruct Hs as [(Hd & _)|(rest & Hd & _)].
  - exists 1%nat, NullDeref. eapply run_app; [exact Hr|]. cbn [repeat irun istep]. rewrite Hg. cbn [bind]. unfold it_next, it_use.
    cbn [vblock]. now rewrite Nat.eqb_refl, Hd.
  - destruct (on_block dflt esz realloc_ok j _ _ s k Hg Hd (Nat.lt_succ_diag_r _)) as (m & Hm). exists m, OutOfBounds. eapply run_app; eauto.
Qed.
