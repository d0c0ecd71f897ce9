(** Each callback of the parser does to the memory what it means for the values. *)
From Verif Require Import Base JsonModel JsonSpec ValueSpec ValueModel ValueProof ValueProof7 ValueProof8 JsonHeapSpec JsonHeapModel JsonHeapProof2.
From Coq Require Import List NArith ZArith Bool Lia Arith.
Import ListNotations.

(** ** The callbacks on values *)
(** m_Root and m_Stack, last first *)
Definition tstate : Type := (tree * list (bytes * tree))%type.
Definition tparent (u : tree) (st : tstate) : tstate :=
  match snd st with
  | [] => (u, [])
  | (k, t) :: stk =>
      (fst st, (k, match t with TObj ms => TObj (assoc_set k u ms) | TArr l => TArr (l ++ [u]) | _ => t end) :: stk)
  end.
Definition tfire (e : ev) (st : tstate) : option tstate :=
  match e with
  | EvBool b => Some (tparent (TBool b) st)
  | EvNum z => Some (tparent (TInt z) st)
  | EvStr s => Some (tparent (TStr s) st)
  | EvKey k => match snd st with [] => None | (_, t) :: stk => Some (fst st, (k, t) :: stk) end
  | EvArr => Some (fst st, ([] : bytes, TArr []) :: snd st)
  | EvObj => Some (fst st, ([] : bytes, TObj []) :: snd st)
  | EvEnd => match snd st with [] => None | (_, t) :: stk => Some (tparent t (fst st, stk)) end
  end.
Fixpoint tplay (es : list ev) (st : tstate) : option tstate :=
  match es with
  | [] => Some st
  | e :: es' => match tfire e st with Some st' => tplay es' st' | None => None end
  end.

(** storage that a destruction leaves behind, and that of a value overwritten *)
Definition waste (t : tree) : nat := blocks t - freed t.
Definition over (st : tstate) : nat :=
  match snd st with
  | [] => blocks (fst st)
  | (k, TObj ms) :: _ => weight (assoc k ms)
  | _ => 0
  end.
Definition tcost (e : ev) (st : tstate) : nat :=
  match e with
  | EvBool _ | EvStr _ => over st
  | EvNum _ => 1 + over st
  | EvKey _ | EvArr | EvObj => 0
  | EvEnd => match snd st with [] => 0 | (_, t) :: stk => waste t + waste t + waste t + over (fst st, stk) end
  end.
Fixpoint tplay_cost (es : list ev) (st : tstate) : nat :=
  match es with
  | [] => 0
  | e :: es' => tcost e st + match tfire e st with Some st' => tplay_cost es' st' | None => 0 end
  end.

(** ** The memory between two callbacks *)
Record desc (f : vars) (root : tree) (ts : list tree) (side : bool) (a r : option tree) : Prop := mkD {
  d_root : f v_root = Some root;
  d_local : f v_local = None;
  d_param : f v_param = None;
  d_made : f v_made = None;
  d_conv : f v_conv = None;
  d_args : f v_args = a;
  d_rets : f v_rets = r;
  d_here : forall i, f (v_stack side i) = nth_error ts i;
  d_there : forall i, f (v_stack (negb side) i) = None
}.
Definition trees (stk : list (bytes * tree)) : list tree := rev (map snd stk).
Definition G (n b : nat) (c : hstate) (st : tstate) (a r : option tree) (L : nat) : Prop :=
  h_keys c = map fst (snd st) /\ exists f, mem n b (h_mem c) f L /\ desc f (fst st) (trees (snd st)) (h_side c) a r.

Lemma stack_inj s s' i j : v_stack s i = v_stack s' j -> s = s' /\ i = j.
Proof. unfold v_stack. destruct s, s'; intros H; split; auto; lia. Qed.
Lemma stack_ge s i : 7 <= v_stack s i.
Proof. unfold v_stack. lia. Qed.
Lemma trees_length stk : length (trees stk) = length stk.
Proof. unfold trees. now rewrite rev_length, map_length. Qed.
Lemma trees_cons k t stk : trees ((k, t) :: stk) = trees stk ++ [t].
Proof. reflexivity. Qed.
Lemma nth_snoc {A} (l : list A) x i : nth_error (l ++ [x]) i = if (i =? length l)%nat then Some x else nth_error l i.
Proof.
  destruct (Nat.eqb_spec i (length l)) as [->|Hn]; [apply nth_mid|]. destruct (lt_dec i (length l)); [now apply nth_error_app1|].
  rewrite (proj2 (nth_error_None l i)) by lia. apply nth_error_None. rewrite app_length. cbn. lia.
Qed.
Lemma ops_app l1 : forall st l2, do_ops st (l1 ++ l2) = (st' <- do_ops st l1 ;; do_ops st' l2).
Proof. induction l1 as [|o l1 IH]; intros st l2; cbn [app do_ops bind]; [reflexivity|]. destruct (step_op st o); cbn [bind]; auto. Qed.
Lemma ops_auto l : forall st st' a, do_ops st l = Ret st' -> is_auto (s_mem st) a -> is_auto (s_mem st') a.
Proof.
  induction l as [|o l IH]; intros st st' a E Ha; cbn [do_ops] in E; [injection E as <-; auto|]. apply bind_ret in E as (s1 & E1 & E). eapply IH; eauto. eapply step_auto; eauto.
Qed.

(** set_parent *)
Lemma parent_ok n b c f L u root stk : mem n b (h_mem c) f L -> h_keys c = map fst stk -> f v_param = Some u -> f v_root = Some root ->
  (forall i, f (v_stack (h_side c) i) = nth_error (trees stk) i) ->
  exists c' f', h_set_parent c = Ret c' /\ h_keys c' = h_keys c /\ h_side c' = h_side c /\ h_pushes c' = h_pushes c /\
    mem n b (h_mem c') f' (L + over (root, stk) + waste u) /\ f' v_param = None /\ f' v_root = Some (fst (tparent u (root, stk))) /\
    (forall i, f' (v_stack (h_side c) i) = nth_error (trees (snd (tparent u (root, stk)))) i) /\
    (forall x, x <> v_param -> x <> v_root -> (forall i, x <> v_stack (h_side c) i) -> f' x = f x) /\
    (forall a, is_auto (s_mem (h_mem c)) a -> is_auto (s_mem (h_mem c')) a).
Proof.
  intros Hm Hk Hp Hr Hs.
  assert (Hstep : exists st' f1, (match h_keys c with
         | [] => step_op (h_mem c) (Assign (v_root, []) (v_param, []))
         | key :: _ =>
             par <- load (s_mem (h_mem c)) (0, At (top c)) ;;
             match v_kind par with
             | KObj => step_op (h_mem c) (Put (top c, []) key (v_param, []))
             | KArr => step_op (h_mem c) (Push (top c, []) (v_param, []))
             | _ => Ret (h_mem c)
             end
         end) = Ret st' /\ mem n b st' f1 (L + over (root, stk)) /\ f1 v_param = Some u /\ f1 v_root = Some (fst (tparent u (root, stk))) /\
    (forall i, f1 (v_stack (h_side c) i) = nth_error (trees (snd (tparent u (root, stk)))) i) /\
    (forall x, x <> v_param -> x <> v_root -> (forall i, x <> v_stack (h_side c) i) -> f1 x = f x) /\
    (forall a, is_auto (s_mem (h_mem c)) a -> is_auto (s_mem st') a)).
  { destruct stk as [|[k t] stk]; cbn [map fst] in Hk; rewrite Hk.
    - destruct (m_assign _ _ _ _ _ v_root v_param _ _ Hm ltac:(discriminate) Hr Hp) as (s' & E & Hm'). exists s', (upd f v_root (Some u)). cbn [over tparent snd fst] in *.
      split; [exact E|]. split; [exact Hm'|]. split; [exact Hp|]. split; [reflexivity|]. split; [|split].
      + intros i. rewrite upd_other by (pose proof (stack_ge (h_side c) i); unfold v_root; lia). apply Hs.
      + intros x _ Hx _. now apply upd_other.
      + intros a. eapply step_auto; eauto.
    - assert (Et : top c = v_stack (h_side c) (length (trees stk))). { unfold top, depth. rewrite Hk. cbn [length]. now rewrite trees_length, map_length. }
      assert (Ht : f (top c) = Some t). { rewrite Et, Hs, trees_cons. apply nth_mid. }
      assert (Hne : top c <> v_param /\ top c <> v_root). { rewrite Et. pose proof (stack_ge (h_side c) (length (trees stk))). unfold v_param, v_root. lia. } destruct Hne as [Hne1 Hne2].
      destruct (mem_kind _ _ _ _ _ _ _ Hm Ht) as (v & El & Ek). rewrite El. cbn [bind]. rewrite Ek.
      assert (Hupd : forall t' i, upd f (top c) (Some t') (v_stack (h_side c) i) = nth_error (trees ((k, t') :: stk)) i).
      { intros t' i. rewrite trees_cons, nth_snoc. unfold upd. rewrite Et. destruct (Nat.eqb_spec i (length (trees stk))) as [->|Hi]; [now rewrite Nat.eqb_refl|].
        destruct (Nat.eqb_spec (v_stack (h_side c) i) (v_stack (h_side c) (length (trees stk)))) as [Ei|_]; [apply stack_inj in Ei; lia|]. rewrite Hs, trees_cons, nth_snoc. destruct (Nat.eqb_spec i (length (trees stk))); [lia|reflexivity]. }
      assert (Hskip : exists st' f1, Ret (h_mem c) = Ret st' /\ mem n b st' f1 (L + 0) /\ f1 v_param = Some u /\ f1 v_root = Some root /\
        (forall i, f1 (v_stack (h_side c) i) = nth_error (trees ((k, t) :: stk)) i) /\ (forall x, x <> v_param -> x <> v_root -> (forall i, x <> v_stack (h_side c) i) -> f1 x = f x) /\
        (forall a, is_auto (s_mem (h_mem c)) a -> is_auto (s_mem st') a)).
      { exists (h_mem c), f. rewrite Nat.add_0_r. auto 10. }
      unfold over, tparent. cbn [snd fst]. destruct t as [| | | |l|ms]; cbn [kind_of]; try exact Hskip; clear Hskip.
      + destruct (m_push _ _ _ _ _ (top c) v_param _ _ Hm Hne1 Ht Hp) as (s' & E & Hm'). exists s', (upd f (top c) (Some (TArr (l ++ [u])))). rewrite Nat.add_0_r. split; [exact E|]. split; [exact Hm'|]. split; [rewrite upd_other by auto; exact Hp|]. split; [rewrite upd_other by auto; exact Hr|]. split; [apply Hupd|]. split.
        * intros x _ _ Hx. apply upd_other. rewrite Et. apply Hx.
        * intros a. eapply step_auto; eauto.
      + destruct (m_put _ _ _ _ _ (top c) v_param k _ _ Hm Hne1 Ht Hp) as (s' & E & Hm'). exists s', (upd f (top c) (Some (TObj (assoc_set k u ms)))). split; [exact E|]. split; [exact Hm'|]. split; [rewrite upd_other by auto; exact Hp|]. split; [rewrite upd_other by auto; exact Hr|]. split; [apply Hupd|]. split.
        * intros x _ _ Hx. apply upd_other. rewrite Et. apply Hx.
        * intros a. eapply step_auto; eauto. }
  destruct Hstep as (st' & f1 & E1 & Hm1 & P1 & R1 & S1 & O1 & A1). destruct (m_destroy _ _ _ _ _ v_param _ Hm1 P1) as (s2 & E2 & Hm2).
  exists (mkH s2 (h_keys c) (h_side c) (h_pushes c)), (upd f1 v_param None). unfold h_set_parent. rewrite E1. cbn [bind]. rewrite E2. cbn [bind h_keys h_side h_pushes h_mem].
  split; [reflexivity|]. split; [reflexivity|]. split; [reflexivity|]. split; [reflexivity|]. split; [exact Hm2|]. split; [reflexivity|]. split; [exact R1|]. split; [|split].
  - intros i. rewrite upd_other by (pose proof (stack_ge (h_side c) i); unfold v_param; lia). auto.
  - intros x Hx H2 H3. rewrite upd_other by auto. auto.
  - intros a Ha. eapply step_auto; eauto.
Qed.
Lemma tparent_keys u st : map fst (snd (tparent u st)) = map fst (snd st).
Proof. destruct st as [root [|[k t] stk]]; reflexivity. Qed.
Lemma stack_low s i x : x < 7 -> x <> v_stack s i.
Proof. intros H E. pose proof (stack_ge s i). lia. Qed.
Lemma stack_side s i j : v_stack (negb s) i <> v_stack s j.
Proof. intros E. apply stack_inj in E as [E _]. destruct s; discriminate. Qed.
Ltac low := first [discriminate | apply stack_low; cbv; lia | apply not_eq_sym, stack_low; cbv; lia | apply stack_side | apply not_eq_sym, stack_side].

(** the rest of a callback that holds its value in [v_local], after the parameter is made *)
Lemma finish_ok n b c f L u root stk a r w : mem n b (h_mem c) f L -> h_keys c = map fst stk ->
  desc (upd (upd f v_param None) v_local None) root (trees stk) (h_side c) a r -> f v_param = Some u -> f v_local = w ->
  exists c' f', h_set_parent c = Ret c' /\ h_keys c' = map fst (snd (tparent u (root, stk))) /\ h_side c' = h_side c /\ mem n b (h_mem c') f' (L + over (root, stk) + waste u) /\ f' v_local = w /\
    desc (upd f' v_local None) (fst (tparent u (root, stk))) (trees (snd (tparent u (root, stk)))) (h_side c') a r /\
    (forall a, is_auto (s_mem (h_mem c)) a -> is_auto (s_mem (h_mem c')) a).
Proof.
  intros Hm Hk [D1 D2 D3 D4 D5 D6 D7 D8 D9] Hp Hl.
  assert (Hr : f v_root = Some root) by exact D1. assert (Hs : forall i, f (v_stack (h_side c) i) = nth_error (trees stk) i). { intros i. rewrite <- D8. rewrite !upd_other by low. reflexivity. }
  destruct (parent_ok _ _ _ _ _ _ _ _ Hm Hk Hp Hr Hs) as (c' & f' & E & Ek & Es & _ & Hm' & P' & R' & S' & O' & A').
  exists c', f'. split; [exact E|]. split; [rewrite tparent_keys; cbn [snd]; congruence|]. split; [exact Es|]. split; [exact Hm'|]. split; [rewrite O'; auto; try discriminate; intros i; low|]. split; [|exact A'].
  assert (Hlow : forall x, x < 7 -> x <> v_param -> x <> v_root -> f' x = f x) by (intros x H1 H2 H3; apply O'; auto; intros i; now apply stack_low).
  rewrite Es. constructor.
  - exact R'.
  - reflexivity.
  - exact P'.
  - rewrite upd_other, Hlow by (discriminate || (cbv; lia)). exact D4.
  - rewrite upd_other, Hlow by (discriminate || (cbv; lia)). exact D5.
  - rewrite upd_other, Hlow by (discriminate || (cbv; lia)). exact D6.
  - rewrite upd_other, Hlow by (discriminate || (cbv; lia)). exact D7.
  - intros i. rewrite upd_other by low. apply S'.
  - intros i. rewrite upd_other by low. rewrite O' by (low || (intros j; low)). rewrite <- (D9 i). rewrite !upd_other by low. reflexivity.
Qed.
Lemma desc_ext f g root ts side a r : (forall x, f x = g x) -> desc f root ts side a r -> desc g root ts side a r.
Proof. intros H [D1 D2 D3 D4 D5 D6 D7 D8 D9]. constructor; intros; rewrite <- H; auto. Qed.
Lemma upd_none f x : f x = None -> forall v y, upd (upd f x v) x None y = f y.
Proof. intros H v y. unfold upd. destruct (Nat.eqb_spec y x) as [->|]; auto. Qed.

Lemma leaf_ok n b c st a r L x : 7 <= n -> G n b c st a r L -> waste (tree_of x) = 0 ->
  exists c', h_leaf x c = Ret c' /\ G n b c' (tparent (tree_of x) st) a r (L + over st).
Proof.
  intros Hn (Hk & f & Hm & Hd) Hw. destruct st as [root stk]. cbn [fst snd] in *.
  destruct (m_new _ _ _ _ _ v_local x Hm ltac:(unfold v_local; lia) (d_local _ _ _ _ _ _ Hd)) as (s1 & E1 & Hm1).
  destruct (m_copy _ _ _ _ _ v_param v_local (tree_of x) Hm1 (upd_same _ _ _) ltac:(unfold v_param; lia)) as (s2 & E2 & Hm2). { rewrite upd_other by discriminate. apply Hd. }
  set (f2 := upd (upd f v_local (Some (tree_of x))) v_param (Some (tree_of x))) in *.
  destruct (finish_ok n b (with_mem c s2) f2 L (tree_of x) root stk a r (Some (tree_of x)) Hm2 Hk) as (c' & f' & E & Ek & Es & Hm' & El & Hd' & _); [|reflexivity|reflexivity|].
  { eapply desc_ext; [|exact Hd]. intros y. unfold f2, upd. destruct (Nat.eqb_spec y v_local) as [->|]; [apply (d_local _ _ _ _ _ _ Hd)|]. destruct (Nat.eqb_spec y v_param) as [->|]; [apply (d_param _ _ _ _ _ _ Hd)|reflexivity]. }
  destruct (m_destroy _ _ _ _ _ v_local _ Hm' El) as (s4 & E4 & Hm4).
  unfold h_leaf. cbn [do_ops]. rewrite E1. cbn [bind]. rewrite E2. cbn [bind]. rewrite E. cbn [bind do_ops]. rewrite E4. cbn [bind]. eexists. split; [reflexivity|].
  split; [exact Ek|]. eexists. split; [|exact Hd']. cbn [with_mem h_mem]. fold (waste (tree_of x)) in Hm4. rewrite Hw, !Nat.add_0_r in Hm4. exact Hm4.
Qed.
Lemma number_ok n b c st a r L z : 7 <= n -> G n b c st a r L ->
  exists c', h_number z c = Ret c' /\ G n b c' (tparent (TInt z) st) a r (L + over st + 1).
Proof.
  intros Hn (Hk & f & Hm & Hd). destruct st as [root stk]. cbn [fst snd] in *.
  destruct (m_lend _ _ _ _ _ v_param z Hm ltac:(unfold v_param; lia) (d_param _ _ _ _ _ _ Hd)) as (h & w & s1 & E1 & E2 & Hm1 & Ha & Hpos).
  set (f1 := upd f v_param (Some (TInt z))) in *.
  destruct (finish_ok n b (with_mem c s1) f1 L (TInt z) root stk a r None Hm1 Hk) as (c' & f' & E & Ek & Es & Hm' & El & Hd' & Hauto); [|reflexivity|exact (d_local _ _ _ _ _ _ Hd)|].
  { eapply desc_ext; [|exact Hd]. intros y. unfold f1, upd. destruct (Nat.eqb_spec y v_local) as [->|]; [apply (d_local _ _ _ _ _ _ Hd)|]. destruct (Nat.eqb_spec y v_param) as [->|]; [apply (d_param _ _ _ _ _ _ Hd)|reflexivity]. }
  unfold h_number. rewrite E1. cbn [bind]. rewrite E2. cbn [bind]. rewrite E. cbn [bind]. eexists. split; [reflexivity|].
  split; [exact Ek|]. exists f'. cbn [with_mem h_mem h_side]. split.
  - apply m_unlend; [exact Hm'|lia|]. apply Hauto. exact Ha.
  - eapply desc_ext; [|exact Hd']. intros y. unfold upd. destruct (Nat.eqb_spec y v_local) as [->|]; auto.
Qed.
Lemma key_ok n b c root k0 t stk a r L k : G n b c (root, (k0, t) :: stk) a r L -> exists c', h_key k c = Ret c' /\ G n b c' (root, (k, t) :: stk) a r L.
Proof.
  intros (Hk & f & Hm & Hd). cbn [fst snd map] in *. unfold h_key. rewrite Hk. eexists. split; [reflexivity|]. split; [reflexivity|]. exists f. split; auto.
Qed.
Lemma end_ok n b c root k0 t stk a r L : 7 <= n -> G n b c (root, (k0, t) :: stk) a r L ->
  exists c', h_end c = Ret c' /\ G n b c' (tparent t (root, stk)) a r (L + (waste t + waste t + waste t + over (root, stk))).
Proof.
  intros Hn (Hk & f & Hm & Hd). cbn [fst snd map] in *. unfold h_end. rewrite Hk.
  assert (Et : top c = v_stack (h_side c) (length (trees stk))). { unfold top, depth. rewrite Hk. cbn [length]. now rewrite trees_length, map_length. }
  assert (Ht : f (top c) = Some t). { rewrite Et, (d_here _ _ _ _ _ _ Hd), trees_cons. apply nth_mid. }
  assert (Htl : forall x, x < 7 -> x <> top c) by (intros x Hx; rewrite Et; now apply stack_low).
  destruct (m_copy _ _ _ _ _ v_local (top c) t Hm Ht ltac:(unfold v_local; lia) (d_local _ _ _ _ _ _ Hd)) as (s1 & E1 & Hm1).
  destruct (m_destroy _ _ _ _ _ (top c) t Hm1) as (s2 & E2 & Hm2). { rewrite upd_other; [exact Ht|]. apply not_eq_sym, Htl. cbv. lia. }
  set (f2 := upd (upd f v_local (Some t)) (top c) None) in *.
  assert (Hl2 : f2 v_local = Some t). { unfold f2. rewrite upd_other by (apply Htl; cbv; lia). apply upd_same. }
  destruct (m_copy _ _ _ _ _ v_param v_local t Hm2 Hl2 ltac:(unfold v_param; lia)) as (s3 & E3 & Hm3). { unfold f2. rewrite upd_other by (apply Htl; cbv; lia). rewrite upd_other by discriminate. apply Hd. }
  set (f3 := upd f2 v_param (Some t)) in *.
  destruct (finish_ok n b (mkH s3 (map fst stk) (h_side c) (h_pushes c)) f3 (L + waste t) t root stk a r (Some t) Hm3 eq_refl) as (c' & f' & E & Ek & Es & Hm' & El & Hd' & _); [|reflexivity|exact Hl2|].
  { cbn [h_side]. assert (Hf : forall x, x <> v_local -> x <> v_param -> x <> top c -> upd (upd f3 v_param None) v_local None x = f x). { intros x H1 H2 H3. unfold f3, f2. rewrite !upd_other by auto. reflexivity. }
    destruct Hd as [D1 D2 D3 D4 D5 D6 D7 D8 D9]. constructor; try reflexivity; try (rewrite Hf; auto; try discriminate; apply Htl; cbv; lia).
    - intros i. destruct (Nat.eq_dec i (length (trees stk))) as [->|Hi].
      + rewrite <- Et. rewrite !upd_other by (apply not_eq_sym, Htl; cbv; lia). unfold f3. rewrite upd_other by (apply not_eq_sym, Htl; cbv; lia). unfold f2. rewrite upd_same. symmetry. apply nth_error_None. lia.
      + rewrite Hf; [|low|low|rewrite Et; intros Ei; apply stack_inj in Ei; lia]. rewrite D8, trees_cons, nth_snoc. destruct (Nat.eqb_spec i (length (trees stk))); [lia|reflexivity].
    - intros i. rewrite Hf; [apply D9|low|low|rewrite Et; apply stack_side]. }
  destruct (m_destroy _ _ _ _ _ v_local _ Hm' El) as (s4 & E4 & Hm4).
  cbn [do_ops]. rewrite E1. cbn [bind]. rewrite E2. cbn [bind]. rewrite E3. cbn [bind]. rewrite E. cbn [bind]. rewrite E4. cbn [bind]. eexists. split; [reflexivity|].
  split; [exact Ek|]. eexists. split; [|exact Hd']. cbn [with_mem h_mem]. fold (waste t) in Hm4. replace (L + (waste t + waste t + waste t + over (root, stk))) with (L + waste t + over (root, stk) + waste t + waste t) by lia. exact Hm4.
Qed.

(** the vector grows *)
Lemma copy_all n b sd ts : forall k j st f L, mem n b st f L -> j + k <= length ts ->
  (forall i, f (v_stack (negb sd) i) = nth_error ts i) -> (forall i, j <= i < j + k -> f (v_stack sd i) = None) -> (forall i, i < length ts -> v_stack sd i < n) ->
  exists st' f', do_ops st (map (fun i => Copy (v_stack sd i) (v_stack (negb sd) i, [])) (seq j k)) = Ret st' /\ mem n b st' f' L /\
    (forall i, j <= i < j + k -> f' (v_stack sd i) = nth_error ts i) /\ (forall x, (forall i, j <= i < j + k -> x <> v_stack sd i) -> f' x = f x).
Proof.
  induction k as [|k IH]; intros j st f L Hm Hle Hs Hf Hn; cbn [seq map do_ops].
  - exists st, f. split; [reflexivity|]. split; [exact Hm|]. split; [intros; lia|auto].
  - destruct (nth_error ts j) as [t|] eqn:Ej; [|apply nth_error_None in Ej; lia].
    destruct (m_copy _ _ _ _ _ (v_stack sd j) (v_stack (negb sd) j) t Hm) as (s1 & E1 & Hm1); [rewrite Hs; exact Ej|apply Hn; lia|apply Hf; lia|].
    destruct (IH (S j) s1 _ L Hm1) as (st' & f' & E & Hm' & H1 & H2); [lia| | |exact Hn|].
    + intros i. rewrite upd_other by low. apply Hs.
    + intros i Hi. rewrite upd_other by (intros Ei; apply stack_inj in Ei; lia). apply Hf. lia.
    + exists st', f'. rewrite E1. cbn [bind]. split; [exact E|]. split; [exact Hm'|]. split.
      * intros i Hi. destruct (Nat.eq_dec i j) as [->|Hne]; [|apply H1; lia]. rewrite H2 by (intros i' Hi' Ei; apply stack_inj in Ei; lia). now rewrite upd_same.
      * intros x Hx. rewrite H2 by (intros i' Hi'; apply Hx; lia). apply upd_other. apply Hx. lia.
Qed.
Definition wastes (ts : list tree) : nat := list_sum (map waste ts).
Lemma destroy_all n b sd ts : forall k j st f L, mem n b st f L -> j + k = length ts -> (forall i, j <= i < j + k -> f (v_stack sd i) = nth_error ts i) ->
  exists st' f', do_ops st (map (fun i => Destroy (v_stack sd i)) (seq j k)) = Ret st' /\ mem n b st' f' (L + wastes (skipn j ts)) /\
    (forall i, j <= i < j + k -> f' (v_stack sd i) = None) /\ (forall x, (forall i, j <= i < j + k -> x <> v_stack sd i) -> f' x = f x).
Proof.
  induction k as [|k IH]; intros j st f L Hm Hle Hs; cbn [seq map do_ops].
  - exists st, f. split; [reflexivity|]. rewrite skipn_all2 by lia. cbn. rewrite Nat.add_0_r. split; [exact Hm|]. split; [intros; lia|auto].
  - destruct (nth_error ts j) as [t|] eqn:Ej; [|apply nth_error_None in Ej; lia].
    destruct (m_destroy _ _ _ _ _ (v_stack sd j) t Hm) as (s1 & E1 & Hm1); [rewrite Hs by lia; exact Ej|].
    destruct (IH (S j) s1 _ _ Hm1) as (st' & f' & E & Hm' & H1 & H2); [lia| |].
    + intros i Hi. rewrite upd_other by (intros Ei; apply stack_inj in Ei; lia). apply Hs. lia.
    + exists st', f'. rewrite E1. cbn [bind]. split; [exact E|]. split; [|split].
      * assert (Es : skipn j ts = t :: skipn (S j) ts). { clear - Ej. revert j Ej. induction ts as [|t0 ts IH]; intros [|j] Ej; cbn in Ej; try discriminate; [now injection Ej as ->|]. exact (IH _ Ej). }
        rewrite Es. unfold wastes. cbn [map list_sum fold_right]. fold (wastes (skipn (S j) ts)). change (fold_right Nat.add 0 (map waste (skipn (S j) ts))) with (wastes (skipn (S j) ts)). rewrite Nat.add_assoc. exact Hm'.
      * intros i Hi. destruct (Nat.eq_dec i j) as [->|Hne]; [|apply H1; lia]. rewrite H2 by (intros i' Hi' Ei; apply stack_inj in Ei; lia). now rewrite upd_same.
      * intros x Hx. rewrite H2 by (intros i' Hi'; apply Hx; lia). apply upd_other. apply Hx. lia.
Qed.

Lemma begin_ok grows n b c root stk a r L x : 7 <= n -> v_stack true (length stk) < n -> G n b c (root, stk) a r L -> waste (tree_of x) = 0 ->
  exists c' L', h_begin grows x c = Ret c' /\ G n b c' (root, ([], tree_of x) :: stk) a r L' /\ L' = L + (if grows (h_pushes c) then wastes (trees stk) else 0).
Proof.
  intros Hn Hst (Hk & f & Hm & Hd) Hw. cbn [fst snd] in *.
  assert (Hdep : depth c = length (trees stk)). { unfold depth. now rewrite Hk, map_length, trees_length. }
  set (g := grows (h_pushes c)). set (sd := if g then negb (h_side c) else h_side c). set (d := length (trees stk)) in *.
  assert (Hlt : forall s i, i <= d -> v_stack s i < n). { intros s i Hi. unfold d in Hi. rewrite trees_length in Hi. unfold v_stack in *. destruct s; lia. }
  assert (Hfree : f (v_stack sd d) = None). { unfold sd. destruct g; [apply Hd|]. rewrite (d_here _ _ _ _ _ _ Hd). apply nth_error_None. unfold d. lia. }
  destruct (m_new _ _ _ _ _ v_local x Hm ltac:(unfold v_local; lia) (d_local _ _ _ _ _ _ Hd)) as (s1 & E1 & Hm1).
  destruct (m_copy _ _ _ _ _ v_made v_local (tree_of x) Hm1 (upd_same _ _ _) ltac:(unfold v_made; lia) (d_made _ _ _ _ _ _ Hd)) as (s2 & E2 & Hm2).
  destruct (m_move _ _ _ _ _ v_conv v_made (tree_of x) Hm2 (upd_same _ _ _) ltac:(unfold v_conv; lia) (d_conv _ _ _ _ _ _ Hd)) as (s3 & E3 & Hm3).
  destruct (m_move _ _ _ _ _ (v_stack sd d) v_conv (tree_of x) Hm3 (upd_same _ _ _) (Hlt _ _ (le_n _))) as (s4 & E4 & Hm4). { rewrite !upd_other by low. exact Hfree. }
  match type of Hm4 with mem _ _ _ ?F _ => set (f4 := F) in * end.
  assert (H4 : forall y, y <> v_local -> y <> v_made -> y <> v_conv -> y <> v_stack sd d -> f4 y = f y). { intros y N1 N2 N3 N4. unfold f4. rewrite !upd_other by auto. reflexivity. }
  assert (T4 : f4 (v_stack sd d) = Some (tree_of x)) by apply upd_same.
  assert (C4 : f4 v_conv = Some TUndef /\ f4 v_made = Some TUndef /\ f4 v_local = Some (tree_of x)). { unfold f4. rewrite !(upd_other _ (v_stack sd d)) by low. repeat split. }
  (* what the vector does *)
  assert (Hgrow : exists s5 f5 L', (if g then do_ops s4 (map (fun i => Copy (v_stack sd i) (v_stack (h_side c) i, [])) (indices d) ++ map (fun i => Destroy (v_stack (h_side c) i)) (indices d)) else Ret s4) = Ret s5 /\
     mem n b s5 f5 L' /\ L' = L + (if g then wastes (trees stk) else 0) /\ (forall i, f5 (v_stack sd i) = nth_error (trees stk ++ [tree_of x]) i) /\ (forall i, f5 (v_stack (negb sd) i) = None) /\ (forall y, y < 7 -> f5 y = f4 y)).
  { destruct g eqn:Eg.
    - subst sd. unfold indices.
      destruct (copy_all n b (negb (h_side c)) (trees stk) d 0 s4 f4 L Hm4 ltac:(unfold d; lia)) as (s5 & f5 & E5 & Hm5 & H5 & O5).
      + intros i. rewrite negb_involutive. rewrite H4; [apply Hd|low|low|low|intros Ei; apply stack_inj in Ei as [Ei _]; destruct (h_side c); discriminate].
      + intros i Hi. rewrite H4; [apply Hd|low|low|low|intros Ei; apply stack_inj in Ei; lia].
      + intros i Hi. apply Hlt. unfold d. lia.
      + rewrite negb_involutive in E5.
        destruct (destroy_all n b (h_side c) (trees stk) d 0 s5 f5 L Hm5 ltac:(unfold d; lia)) as (s6 & f6 & E6 & Hm6 & H6 & O6).
        { intros i Hi. rewrite O5 by (intros j Hj Ej; apply stack_inj in Ej as [Ej _]; destruct (h_side c); discriminate). rewrite H4; [apply Hd|low|low|low|intros Ei; apply stack_inj in Ei as [Ei _]; destruct (h_side c); discriminate]. }
        exists s6, f6, (L + wastes (trees stk)). rewrite ops_app, E5. cbn [bind]. split; [exact E6|]. split; [exact Hm6|]. split; [lia|]. split; [|split].
        * intros i. rewrite O6 by (intros j Hj Ej; apply stack_inj in Ej as [Ej _]; destruct (h_side c); discriminate). rewrite nth_snoc. fold d. destruct (Nat.eqb_spec i d) as [->|Hi].
          -- rewrite O5 by (intros j Hj Ej; apply stack_inj in Ej; lia). exact T4.
          -- destruct (lt_dec i d) as [Hl|Hl]; [apply H5; lia|]. rewrite O5 by (intros j Hj Ej; apply stack_inj in Ej; lia). rewrite H4; [|low|low|low|intros Ei; apply stack_inj in Ei; lia]. rewrite (d_there _ _ _ _ _ _ Hd). symmetry. apply nth_error_None. unfold d in *. lia.
        * intros i. rewrite negb_involutive. destruct (lt_dec i d) as [Hl|Hl]; [apply H6; lia|]. rewrite O6 by (intros j Hj Ej; apply stack_inj in Ej; lia). rewrite O5 by (intros j Hj Ej; apply stack_inj in Ej as [Ej _]; destruct (h_side c); discriminate).
          rewrite H4; [|low|low|low|intros Ei; apply stack_inj in Ei as [Ei _]; destruct (h_side c); discriminate]. rewrite (d_here _ _ _ _ _ _ Hd). apply nth_error_None. unfold d in *. lia.
        * intros y Hy. rewrite O6, O5 by (intros i _; now apply stack_low). reflexivity.
    - subst sd. exists s4, f4, L. split; [reflexivity|]. split; [exact Hm4|]. split; [lia|]. split; [|split].
      + intros i. rewrite nth_snoc. fold d. destruct (Nat.eqb_spec i d) as [->|Hi]; [exact T4|]. rewrite H4; [apply Hd|low|low|low|intros Ei; apply stack_inj in Ei; lia].
      + intros i. rewrite H4; [apply Hd|low|low|low|apply stack_side].
      + auto. }
  destruct Hgrow as (s5 & f5 & L' & E5 & Hm5 & HL1 & S5 & N5 & O5). destruct C4 as (C1 & C2 & C3).
  destruct (m_destroy _ _ _ _ _ v_conv TUndef Hm5) as (s6 & E6 & Hm6). { rewrite O5 by (cbv; lia). exact C1. }
  destruct (m_destroy _ _ _ _ _ v_made TUndef Hm6) as (s7 & E7 & Hm7). { rewrite upd_other by low. rewrite O5 by (cbv; lia). exact C2. }
  destruct (m_destroy _ _ _ _ _ v_local (tree_of x) Hm7) as (s8 & E8 & Hm8). { rewrite !upd_other by low. rewrite O5 by (cbv; lia). exact C3. }
  fold (waste (tree_of x)) in Hm8. rewrite Hw in Hm8. cbn [blocks freed] in Hm8. rewrite Nat.sub_0_r, !Nat.add_0_r in Hm8.
  exists (mkH s8 ([] :: h_keys c) sd (S (h_pushes c))), L'. split; [|split; [|exact HL1]].
  - unfold h_begin. fold g. fold sd. rewrite Hdep. fold d. cbn [do_ops]. rewrite E1. cbn [bind]. rewrite E2. cbn [bind]. rewrite E3. cbn [bind]. rewrite E4. cbn [bind].
    rewrite E5. cbn [bind]. rewrite E6. cbn [bind]. rewrite E7. cbn [bind]. rewrite E8. reflexivity.
  - split; [cbn [h_keys snd map fst]; now rewrite Hk|]. eexists. split; [exact Hm8|]. cbn [fst snd h_side]. rewrite trees_cons.
    assert (Hlow : forall y, y < 7 -> y <> v_local -> y <> v_made -> y <> v_conv -> upd (upd (upd f5 v_conv None) v_made None) v_local None y = f y).
    { intros y Hy N1 N2 N3. rewrite !upd_other by auto. rewrite O5 by auto. apply H4; auto. now apply stack_low. }
    destruct Hd as [D1 D2 D3 D4 D5 D6 D7 D8 D9]. constructor; try reflexivity; try (rewrite Hlow; [assumption|cbv; lia|low|low|low]).
    + intros i. rewrite !upd_other by low. apply S5.
    + intros i. rewrite !upd_other by low. apply N5.
Qed.
