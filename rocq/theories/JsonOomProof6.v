(** The callbacks, one event of the text at a time. *)
From Verif Require Import Base JsonModel JsonSpec ValueSpec ValueModel ValueFaultModel JsonHeapSpec JsonHeapModel JsonOomSpec JsonOomModel ValueProof ValueProof2 ValueProof3 ValueProof4 ValueProof5 ValueProof6 ValueProof7 ValueProof8 JsonHeapProof2 JsonHeapProof3 JsonHeapProof4 JsonHeapProof5 JsonOomProof JsonOomProof2 JsonOomProof3 JsonOomProof4 JsonOomProof5.
From Coq Require Import List NArith ZArith Bool Lia Arith.
Import ListNotations.

Lemma var_cases x : x < 7 \/ exists s i, x = v_stack s i.
Proof.
  destruct (lt_dec x 7) as [Hx|Hx]; [auto|right]. unfold v_stack. exists (Nat.odd (x - 7)), ((x - 7) / 2). pose proof (Nat.div_mod (x - 7) 2 ltac:(lia)) as Hdm. rewrite <- Nat.bit0_mod in Hdm. rewrite Nat.bit0_odd in Hdm. unfold Nat.b2n in Hdm. destruct (Nat.odd (x - 7)); lia.
Qed.
Lemma passed_low c x : x < 7 -> In x (passed c).
Proof.
  intros Hx. unfold passed. assert (Hc : x = v_param \/ In x [v_conv; v_made; v_local; v_root] \/ In x [v_rets; v_args]). { unfold v_param, v_conv, v_made, v_local, v_root, v_rets, v_args. cbn. lia. }
  destruct Hc as [->|[H|H]]; [now left|right; apply in_or_app; right; apply in_or_app; now left|right; apply in_or_app; right; apply in_or_app; right; apply in_or_app; now right].
Qed.
Lemma passed_here c i : i < depth c -> In (v_stack (h_side c) i) (passed c).
Proof. intros H. unfold passed. right. do 2 (apply in_or_app; right). apply in_or_app. left. apply in_map. unfold indices. apply in_seq. lia. Qed.
Lemma passed_there c i : i <= depth c -> In (v_stack (negb (h_side c)) i) (passed c).
Proof. intros H. unfold passed. right. apply in_or_app. left. apply in_map. unfold indices. apply in_seq. lia. Qed.

Lemma cov_mem n b c f L : mem n b (h_mem c) f L -> (forall i, f (v_stack (h_side c) i) <> None -> i < depth c) -> (forall i, f (v_stack (negb (h_side c)) i) <> None -> i <= depth c) -> cov c.
Proof.
  intros Hm H1 H2 x Hx. assert (Hf : f x <> None). { intros E. rewrite (mem_dead _ _ _ _ _ _ Hm E) in Hx. discriminate. }
  destruct (var_cases x) as [Hl|(s & i & ->)]; [now apply passed_low|]. destruct (bool_dec s (h_side c)) as [->|Hs]; [apply passed_here; auto|].
  assert (s = negb (h_side c)) as -> by (destruct s, (h_side c); cbn; congruence). apply passed_there. auto.
Qed.
Lemma desc_cov n b c f L stk : h_keys c = map fst stk -> mem n b (h_mem c) f L -> (forall i, f (v_stack (h_side c) i) = nth_error (trees stk) i) -> (forall i, f (v_stack (negb (h_side c)) i) = None) -> cov c.
Proof.
  intros Hk Hm H1 H2. eapply cov_mem; [exact Hm| |].
  - intros i Hi. rewrite H1 in Hi. apply nth_error_Some in Hi. rewrite trees_length in Hi. unfold depth. now rewrite Hk, map_length.
  - intros i Hi. now rewrite H2 in Hi.
Qed.
Lemma G_cov n b c st a r L : G n b c st a r L -> cov c.
Proof. intros (Hk & f & Hm & Hd). eapply desc_cov; eauto; apply Hd. Qed.

Ltac bas := repeat (apply Forall_cons; [split; [cbv; lia|intros y Hy; injection Hy as <-; apply passed_low; cbv; lia]|]); apply Forall_nil.
Section Ev.
  Variable alloc : nat -> bool.
  Variable grows : nat -> bool.
  Local Open Scope cmd_scope.
  Notation K := (K_fault alloc grows).
  Notation at_ := (at_ (A := unit)).

  (** what an event needs *)
  Definition mild (e : ev) (st : tstate) : Prop :=
    match e with
    | EvBool b => mildp (TBool b) st
    | EvNum z => mildp (TInt z) st
    | EvStr s => mildp (TStr s) st
    | EvKey _ | EvArr | EvObj => True
    | EvEnd => match snd st with [] => False | (_, t) :: stk => mildp t (fst st, stk) end
    end.
  Notation unset st := (fst st = TUndef).

  Lemma at_leaf n b c st a r L x : 7 <= n -> G n b c st a r L -> J (unset st) (h_mem c) -> mildp (tree_of x) st ->
    at_ c (f_leaf alloc x) (fun _ c' => J (unset (tparent (tree_of x) st)) (h_mem c')).
  Proof.
    intros Hn HG HJ Hmild. pose proof (G_cov _ _ _ _ _ _ _ HG) as Hc. destruct HG as (Hk & f & Hm & Hd). destruct st as [root stk]. cbn [fst snd] in *. unfold f_leaf.
    eapply at_bind.
    { eapply at_basics; [exact HJ|exact Hc|]. bas. }
    intros [] c1 (s' & E & -> & HJ1 & Hc1). cbn [do_ops] in E. apply bind_ret in E as (s1 & E1 & E). apply bind_ret in E as (s2 & E2 & E). injection E as ->.
    destruct (m_new _ _ _ _ _ v_local x Hm ltac:(unfold v_local; lia) (d_local _ _ _ _ _ _ Hd)) as (s1' & E1' & Hm1). rewrite E1' in E1. injection E1 as ->.
    destruct (m_copy _ _ _ _ _ v_param v_local (tree_of x) Hm1 (upd_same _ _ _) ltac:(unfold v_param; lia)) as (s2' & E2' & Hm2). { rewrite upd_other by discriminate. apply Hd. } rewrite E2' in E2. injection E2 as ->.
    set (f2 := upd (upd f v_local (Some (tree_of x))) v_param (Some (tree_of x))) in *.
    eapply at_bind.
    { apply (at_parent alloc n b (with_mem c s') f2 L (tree_of x) root stk); auto; try reflexivity.
      - unfold f2. rewrite !upd_other by low. apply Hd.
      - intros i. cbn [with_mem h_side]. unfold f2. rewrite !upd_other by low. apply Hd. }
    intros [] c2 (_ & _ & HJ2 & _). eapply at_weak; [eapply at_quiet; [exact HJ2|cbn; split; cbv; lia]|]. intros [] c3 (s3 & _ & -> & HJ3). exact HJ3.
  Qed.
  Lemma at_key n b c st a r L k st' : G n b c st a r L -> J (unset st) (h_mem c) -> tfire (EvKey k) st = Some st' -> at_ c (f_set (h_key k)) (fun _ c' => J (unset st') (h_mem c')).
  Proof.
    intros _ HJ Ht. destruct st as [root [|[k0 t] stk]]; [discriminate|]. injection Ht as <-. cbn [fst] in *. apply at_set; unfold h_key; destruct (h_keys c); try discriminate. intros c' E. injection E as <-. exact HJ.
  Qed.
  Lemma at_asks c m Q (rt : Prop) : J rt (h_mem c) -> cov c -> at_ c m Q -> at_ c (_ <- f_ask alloc ;; m) Q.
  Proof.
    intros HJ Hc Hm. apply (at_bind c _ _ (fun _ c' => c' = c)); [apply at_ask; auto; eapply bad_here; eauto|]. intros [] c' ->. exact Hm.
  Qed.
  Lemma at_lend rt n b c f L z : mem n b (h_mem c) f L -> J rt (h_mem c) -> cov c -> v_param < n -> f v_param = None ->
    at_ c (f_lend alloc z) (fun _ c' => exists s', c' = with_mem c s' /\ J rt s' /\ cov c' /\ mem n b s' (upd f v_param (Some (TInt z))) L).
  Proof.
    intros Hm HJ Hc Hv Hp k. unfold f_lend. cbn [f_h f_n]. destruct (m_lend _ _ _ _ _ v_param z Hm Hv Hp) as (h & w & s1 & E1 & E2 & Hm1 & _ & _).
    pose proof (copy_construct_near alloc (s_mem (h_mem c) ++ [Auto (BInt z)]) k (mkV KInt (HPtr (length (s_mem (h_mem c)))))) as Hn.
    destruct (copy_construct_a alloc _ _ _) as [[[h' n'] [v|]]|e|u| |x]; cbn [nearc bind] in *; auto.
    - rewrite E1 in Hn. injection Hn as <- <-. cbn [begin_a]. rewrite E2. cbn [bind f_h]. exists s1. split; [reflexivity|]. split; [|split; [|exact Hm1]].
      + assert (HK : forall y, y <> v_param -> keep y (s_mem (h_mem c)) (s_mem s1)). { intros y Hy. eapply keep_trans; [apply keep_app|]. eapply keep_trans; [eapply keep_copy; eauto|]. eapply keep_begin; eauto. }
        eapply J_mem; [exact HJ|exact Hm1|apply HK; discriminate|]. intros Hr. split; [exact Hr|apply HK; discriminate].
      + intros y Hy. cbn [with_mem h_mem] in Hy. rewrite (begin_alive _ _ _ _ _ E2) in Hy. apply alive_set in Hy as [[-> _]|Hy]; [apply passed_low; cbv; lia|exact (Hc y Hy)].
    - destruct Hn as (ex & ->). cbn [begin_a f_h]. eapply bad_longer; eauto. exists ([Auto (BInt z)] ++ ex). now rewrite app_assoc.
    - rewrite E1 in Hn. discriminate.
  Qed.
  Lemma at_both c m f Q : pt (m (mkFS c 0)) (f c) -> (forall k, pt (m (mkFS c k)) (f c)) -> at_ c m Q -> at_ c m (fun _ c' => Q tt c' /\ f c = Ret c').
  Proof.
    intros _ Hp Ha k. specialize (Hp k). specialize (Ha k). destruct (m (mkFS c k)) as [c' [[]|e|u| |x]]; auto.
  Qed.
  Lemma at_number n b c st a r L z : 7 <= n -> G n b c st a r L -> J (unset st) (h_mem c) -> mildp (TInt z) st ->
    at_ c (f_number alloc z) (fun _ c' => J (unset (tparent (TInt z) st)) (h_mem c')).
  Proof.
    intros Hn HG HJ Hmild. pose proof (G_cov _ _ _ _ _ _ _ HG) as Hc. destruct (number_ok n b c st a r L z Hn HG) as (cn & En & HGn).
    assert (HA : at_ c (f_number alloc z) (fun _ c' => exists s, J (unset (tparent (TInt z) st)) s /\ keep v_args (s_mem s) (s_mem (h_mem c')) /\ keep v_root (s_mem s) (s_mem (h_mem c')))).
    { destruct HG as (Hk & f & Hm & Hd). destruct st as [root stk]. cbn [fst snd] in *.
      refine (at_eq c _ (_ <- f_lend alloc z ;; _ <- f_set_parent alloc ;; f_unlend (length (s_mem (h_mem c)))) _ _ _); [reflexivity|].
      eapply at_bind; [eapply at_lend; eauto; [unfold v_param; lia|apply Hd]|].
      intros [] c1 (s1 & -> & HJ1 & Hc1 & Hm1).
      eapply at_bind.
      { apply (at_parent alloc n b (with_mem c s1) _ L (TInt z) root stk Hm1); auto; try reflexivity.
        - rewrite upd_other by low. apply Hd.
        - intros i. cbn [with_mem h_side]. rewrite upd_other by low. apply Hd. }
      intros [] c2 (_ & _ & HJ2 & _). apply at_set.
      - apply nt_bind; [apply nt_destroy|discriminate].
      - intros c' E. apply bind_ret in E as (h & Eh & E). injection E as <-. cbn [with_mem h_mem s_mem]. exists (h_mem c2). split; [exact HJ2|].
        assert (Hz : length (s_mem (h_mem c)) <> 0). { destruct HJ as ((e & He) & _). destruct He as (A & He). destruct (h_mem c) as [al hh]. pose proof (inv_pos _ _ _ _ He) as Hpos. cbn [s_mem s_alive] in *. lia. }
        split; (eapply keep_trans; [eapply keep_destroy; eauto|apply keep_dead; auto]). }
    eapply at_weak; [eapply (at_both _ _ (h_number z)); [apply pt_number|intros k; apply (pt_number alloc z (mkFS c k))|exact HA]|].
    intros [] c' ((s & HJs & K1 & K2) & E). rewrite En in E. injection E as <-. destruct HGn as (_ & f' & Hm' & _). eapply J_mem; [exact HJs|exact Hm'|exact K1|auto].
  Qed.
  Lemma at_end n b c st a r L st' : 7 <= n -> G n b c st a r L -> J (unset st) (h_mem c) -> mild EvEnd st -> tfire EvEnd st = Some st' ->
    at_ c (f_end alloc) (fun _ c' => J (unset st') (h_mem c')).
  Proof.
    intros Hn HG HJ Hmild Ht. pose proof (G_cov _ _ _ _ _ _ _ HG) as Hc. destruct HG as (Hk & f & Hm & Hd). destruct st as [root [|[k0 t] stk]]; [discriminate|]. cbn [tfire snd fst map mild] in *. injection Ht as <-.
    assert (Et : top c = v_stack (h_side c) (length (trees stk))). { unfold top, depth. rewrite Hk. cbn [length]. now rewrite trees_length, map_length. }
    assert (Ht : f (top c) = Some t). { rewrite Et, (d_here _ _ _ _ _ _ Hd), trees_cons. apply nth_mid. }
    assert (Htl : forall x, x < 7 -> x <> top c) by (intros x Hx; rewrite Et; now apply stack_low).
    refine (at_eq c _ (_ <- f_all alloc [Copy v_local (top c, []); Destroy (top c)] ;;
           _ <- f_set (fun c => Ret (mkH (h_mem c) (map fst stk) (h_side c) (h_pushes c))) ;;
           _ <- f_do alloc (Copy v_param (v_local, [])) ;;
           _ <- f_set_parent alloc ;;
           f_do alloc (Destroy v_local)) _ _ _); [intros k; unfold f_end; cbn [f_h]; rewrite Hk; reflexivity|].
    eapply at_bind.
    { eapply at_basics; [exact HJ|exact Hc|]. constructor; [|constructor; [|constructor]]; cbn.
      - split; [split; cbv; lia|]. intros y Hy. injection Hy as <-. apply passed_low. cbv. lia.
      - split; [split; apply not_eq_sym, Htl; cbv; lia|]. discriminate. }
    intros [] c1 (s' & E & -> & HJ1 & _). cbn [do_ops] in E. apply bind_ret in E as (s1 & E1 & E). apply bind_ret in E as (s2 & E2 & E). injection E as ->.
    destruct (m_copy _ _ _ _ _ v_local (top c) t Hm Ht ltac:(unfold v_local; lia) (d_local _ _ _ _ _ _ Hd)) as (s1' & E1' & Hm1). rewrite E1' in E1. injection E1 as ->.
    destruct (m_destroy _ _ _ _ _ (top c) t Hm1) as (s2' & E2' & Hm2). { rewrite upd_other; [exact Ht|]. apply not_eq_sym, Htl. cbv. lia. } rewrite E2' in E2. injection E2 as ->.
    set (f2 := upd (upd f v_local (Some t)) (top c) None) in *.
    assert (Hl2 : f2 v_local = Some t). { unfold f2. rewrite upd_other by (apply Htl; cbv; lia). apply upd_same. }
    assert (Hf : forall x, x <> v_local -> x <> top c -> f2 x = f x). { intros x H1 H2. unfold f2. rewrite !upd_other by auto. reflexivity. }
    assert (Hhere : forall i, f2 (v_stack (h_side c) i) = nth_error (trees stk) i).
    { intros i. destruct (Nat.eq_dec i (length (trees stk))) as [->|Hi].
      - rewrite <- Et. unfold f2. rewrite upd_same. symmetry. apply nth_error_None. lia.
      - rewrite Hf; [|low|rewrite Et; intros Ei; apply stack_inj in Ei; lia]. rewrite (d_here _ _ _ _ _ _ Hd), trees_cons, nth_snoc. destruct (Nat.eqb_spec i (length (trees stk))); [lia|reflexivity]. }
    set (c2 := mkH s' (map fst stk) (h_side c) (h_pushes c)).
    apply (at_bind _ _ _ (fun _ c' => c' = c2)); [apply at_set; [discriminate|]; intros c' E; injection E as <-; reflexivity|]. intros [] c' ->.
    assert (Hc2 : cov c2).
    { apply (desc_cov n b c2 f2 (L + (blocks t - freed t)) stk); auto. intros i. cbn [c2 h_side]. rewrite Hf; [apply Hd|low|rewrite Et; apply stack_side]. }
    eapply at_bind; [eapply (at_basic alloc (root = TUndef) c2); [exact HJ1|exact Hc2|cbn; split; cbv; lia|]|].
    { intros y Hy. injection Hy as <-. apply passed_low. cbv. lia. }
    intros [] c' (s3 & E3 & -> & HJ3 & Hc3). change (h_mem c2) with s' in E3.
    destruct (m_copy _ _ _ _ _ v_param v_local t Hm2 Hl2 ltac:(unfold v_param; lia)) as (s3' & E3' & Hm3). { rewrite Hf by (low || (apply Htl; cbv; lia)). apply Hd. } rewrite E3' in E3. injection E3 as ->.
    eapply at_bind.
    { apply (at_parent alloc n b (with_mem c2 s3) _ _ t root stk Hm3); auto; try reflexivity.
      - rewrite upd_other by low. rewrite Hf by (low || (apply Htl; cbv; lia)). apply Hd. }
    intros [] c4 (_ & _ & HJ4 & _). eapply at_weak; [eapply at_quiet; [exact HJ4|cbn; split; cbv; lia]|]. intros [] c5 (s5 & _ & -> & HJ5). exact HJ5.
  Qed.
  Lemma at_copies rt side old l : forall c, J rt (h_mem c) -> cov c -> (forall i, In i l -> In (v_stack side i) (passed c)) ->
    at_ c (f_copies alloc side old l) (fun _ c' => exists s', c' = with_mem c s' /\ J rt s' /\ cov c').
  Proof.
    induction l as [|i l IH]; intros c HJ Hc Hl; cbn [f_copies].
    - apply at_ret. exists (h_mem c). split; [destruct c; reflexivity|auto].
    - eapply at_bind; [eapply at_basic; eauto|].
      + cbn. split; apply not_eq_sym, stack_low; cbv; lia.
      + intros x Hx. injection Hx as <-. apply Hl. now left.
      + intros [] c' (s' & _ & -> & HJ' & Hc'). eapply at_asks; [exact HJ'|exact Hc'|]. eapply at_weak; [apply IH; auto|].
        * intros j Hj. apply Hl. now right.
        * intros [] c2 (s2 & -> & HJ2 & Hc2). exists s2. split; [reflexivity|auto].
  Qed.
  Lemma at_begin n b c st a r L x : 7 <= n -> G n b c st a r L -> J (unset st) (h_mem c) ->
    at_ c (f_begin alloc grows x) (fun _ c' => J (unset st) (h_mem c')).
  Proof.
    intros Hn HG HJ. pose proof (G_cov _ _ _ _ _ _ _ HG) as Hc. clear HG.
    set (d := depth c). set (old := h_side c). set (g := grows (h_pushes c)). set (side := if g then negb old else old).
    refine (at_eq c _ (_ <- f_all alloc [New v_local x; Copy v_made (v_local, []); Move v_conv (v_made, [])] ;;
       _ <- (if g then f_ask alloc else cret tt) ;;
       _ <- f_do alloc (Move (v_stack side d) (v_conv, [])) ;;
       _ <- (if g
             then (_ <- f_copies alloc side old (indices d) ;; f_all alloc (map (fun i => Destroy (v_stack old i)) (indices d)))
             else cret tt) ;;
       _ <- f_all alloc [Destroy v_conv; Destroy v_made; Destroy v_local] ;;
       f_set (fun c => Ret (mkH (h_mem c) ([] :: h_keys c) side (S (h_pushes c))))) _ _ _); [reflexivity|].
    assert (Hfree : forall s i, free (v_stack s i)) by (intros s i; split; apply not_eq_sym, stack_low; cbv; lia).
    eapply at_bind.
    { eapply at_basics; [exact HJ|exact Hc|]. bas. }
    intros [] c1 (s1 & _ & -> & HJ1 & Hc1).
    apply (at_bind _ _ _ (fun _ c' => c' = with_mem c s1)).
    { destruct g; [apply at_ask; auto; eapply bad_here; eauto|now apply at_ret]. }
    intros [] c' ->.
    assert (Hend : forall c4, J (unset st) (h_mem c4) -> at_ c4 (_ <- f_all alloc [Destroy v_conv; Destroy v_made; Destroy v_local] ;; f_set (fun c => Ret (mkH (h_mem c) ([] :: h_keys c) side (S (h_pushes c))))) (fun _ c' => J (unset st) (h_mem c'))).
    { intros c4 HJ4. eapply at_bind; [eapply at_quiets; [exact HJ4|repeat constructor; cbv; lia]|]. intros [] c5 (s5 & _ & -> & HJ5). apply at_set; [discriminate|]. intros c6 E. injection E as <-. exact HJ5. }
    destruct g.
    - eapply at_bind; [eapply at_basic; [exact HJ1|exact Hc1|cbn; split; [apply Hfree|split; cbv; lia]|]|].
      { intros y Hy. injection Hy as <-. apply (passed_there c d). apply le_n. }
      intros [] c2 (s2 & _ & -> & HJ2 & Hc2). apply (at_bind _ _ _ (fun _ c' => J (fst st = TUndef) (h_mem c'))); [|intros [] c3 HJ3; apply Hend; exact HJ3].
      eapply at_bind; [eapply at_copies; [exact HJ2|exact Hc2|]|].
      { intros i Hi. apply (passed_there c i). unfold indices in Hi. apply in_seq in Hi. fold d. lia. }
      intros [] c3 (s3 & -> & HJ3 & Hc3). eapply at_weak; [eapply at_quiets; [exact HJ3|]|].
      { apply Forall_forall. intros o Ho. apply in_map_iff in Ho as (i & <- & _). cbn. apply Hfree. }
      intros [] c4 (s4 & _ & -> & HJ4). exact HJ4.
    - eapply at_bind; [eapply at_quiet; [exact HJ1|cbn; split; [apply Hfree|split; cbv; lia]]|].
      intros [] c2 (s2 & _ & -> & HJ2). apply (at_bind _ _ _ (fun _ c' => J (unset st) (h_mem c'))); [now apply at_ret|]. intros [] c3 HJ3. apply Hend. exact HJ3.
  Qed.

  Lemma at_fire n b c st a r L e st' : 7 <= n -> G n b c st a r L -> tfire e st = Some st' -> (nev [e] = 0 \/ v_stack true (length (snd st)) < n) ->
    J (unset st) (h_mem c) -> mild e st ->
    at_ c (fire K e) (fun _ c' => J (unset st') (h_mem c') /\ exists L', G n b c' st' a r L').
  Proof.
    intros Hn HG Ht Hd HJ Hmild. pose proof (G_cov _ _ _ _ _ _ _ HG) as Hc.
    destruct (fire_ok grows n b c st a r L e st' Hn HG Ht Hd) as (c1 & L1 & E1 & HG1 & _).
    assert (HS : sc (fire K e) (fire (K_heap grows) e)) by (destruct e; cbn [fire]; [apply sc_bool|apply sc_num|apply sc_str|apply sc_str|apply sc_arr|apply sc_obj|apply sc_end]).
    assert (HA : at_ c (fire K e) (fun _ c' => J (unset st') (h_mem c'))).
    { destruct e; cbn [fire K_fault k_boolean k_number k_string k_begin_array k_begin_object k_end mild] in *.
      - injection Ht as <-. eapply (at_leaf n b c st a r L (CBool b0)); eauto.
      - injection Ht as <-. do 2 (eapply at_asks; [exact HJ|exact Hc|]). eapply at_number; eauto.
      - injection Ht as <-. do 2 (eapply at_asks; [exact HJ|exact Hc|]). eapply (at_leaf n b c st a r L (CStr s)); eauto.
      - do 2 (eapply at_asks; [exact HJ|exact Hc|]). eapply at_key; eauto.
      - injection Ht as <-. exact (at_begin n b c st a r L _ Hn HG HJ).
      - injection Ht as <-. exact (at_begin n b c st a r L _ Hn HG HJ).
      - eapply at_end; eauto. }
    intros k. specialize (HA k). specialize (HS (mkFS c k)). cbn [f_h] in HS. destruct (fire K e (mkFS c k)) as [c' [[]|x|u| |q]]; auto.
    split; [exact HA|]. rewrite E1 in HS. injection HS as <-. eauto.
  Qed.

  Fixpoint gentle (es : list ev) (st : tstate) : Prop :=
    match es with
    | [] => True
    | e :: es' => mild e st /\ match tfire e st with Some st' => gentle es' st' | None => True end
    end.
  Lemma gentle_app es1 : forall es2 st st', tplay es1 st = Some st' -> gentle es1 st -> gentle es2 st' -> gentle (es1 ++ es2) st.
  Proof.
    induction es1 as [|e es1 IH]; intros es2 st st' Hp H1 H2; cbn [app gentle tplay] in *; [injection Hp as <-; exact H2|]. destruct (tfire e st); [|discriminate]. destruct H1 as [H0 H1]. split; eauto.
  Qed.
  Lemma at_play n b N es : forall c st a r L st', 7 + 2 * N <= n -> G n b c st a r L -> tplay es st = Some st' -> length (snd st) + nev es <= N ->
    J (unset st) (h_mem c) -> gentle es st ->
    at_ c (play K es) (fun _ c' => J (unset st') (h_mem c') /\ exists L', G n b c' st' a r L').
  Proof.
    induction es as [|e es IH]; intros c st a r L st' Hn HG Ht Hd HJ Hg; cbn [tplay play gentle] in *.
    - injection Ht as <-. apply at_ret. eauto.
    - destruct (tfire e st) as [st1|] eqn:Ef; [|discriminate]. destruct Hg as [Hm Hg]. pose proof (fire_depth _ _ _ Ef) as Hd1. change (e :: es) with ([e] ++ es) in Hd. rewrite nev_app in Hd.
      assert (Hn7 : 7 <= n) by lia. eapply at_bind; [apply (at_fire n b c st a r L e st1 Hn7 HG Ef); [|exact HJ|exact Hm]|].
      + destruct (nev [e]) eqn:Eb; [now left|right]. unfold v_stack. lia.
      + intros [] c1 (HJ1 & L1 & HG1). eapply IH; eauto. lia.
  Qed.
End Ev.
