(** Consequences of the heap specification: pointers stay valid, copies are independent. *)
From Verif Require Import Base HashModel HashSpec HashProof HashProof2 HashHeapSpec HashHeapModel HashHeapProof.
From Coq Require Import List NArith ZArith Lia Bool Permutation Arith.
Import ListNotations.
Local Open Scope N_scope.

Section S.
  Context {K V : Type}.
  Variable keqb : K -> K -> bool.
  Hypothesis keqb_ok : forall a b, reflect (a = b) (keqb a b).
  Variable dflt : V.
  Notation world := (world K V).
  Notation stab := (stab K V).
  Notation holds := (HashHeapSpec.holds (V := V) keqb).
  Notation own := (HashHeapSpec.own (V := V) keqb).
  Notation entry_at := (HashHeapSpec.entry_at (V := V) keqb).

  Lemma set_tab_upd (l : list stab) i x : set_tab l i x = upd l i x.
  Proof. revert i; induction l; intros [|i]; cbn; auto. f_equal; auto. Qed.

  Lemma own_set l i x j k p : own (set_tab l i x) j k p -> (j = i /\ holds x k p) \/ (j <> i /\ own l j k p).
  Proof.
    intros (st & Hj & Hh). rewrite set_tab_upd, nth_error_upd in Hj. destruct (Nat.eqb_spec i j) as [->|].
    - destruct (Nat.ltb j (length l)); [|discriminate]. injection Hj as <-. auto.
    - right. split; auto. exists st. auto.
  Qed.

  Lemma own_app l x j k p : own (l ++ [x]) j k p -> (j = length l /\ holds x k p) \/ ((j < length l)%nat /\ own l j k p).
  Proof.
    intros (st & Hj & Hh). destruct (Nat.lt_ge_cases j (length l)) as [L|L].
    - rewrite nth_error_app1 in Hj; auto. right. split; auto. exists st. auto.
    - rewrite nth_error_app2 in Hj; auto. destruct (j - length l)%nat as [|d] eqn:D.
      + injection Hj as <-. left. split; auto. lia.
      + destruct d; discriminate.
  Qed.

  Definition wf (w : world) : Prop :=
    (forall i k p, own (tabs w) i k p -> (p < next w)%nat) /\
    (forall i k i' k' p, own (tabs w) i k p -> own (tabs w) i' k' p -> i = i' /\ k = k').

  Lemma holds_nil b k p : holds (mkS [] b) k p -> False.
  Proof. intros (v & H). discriminate. Qed.

  Lemma holds_put m b k k' p v q : holds (mkS (put keqb m k (p, v)) b) k' q ->
    (k' = k /\ q = p) \/ (k' <> k /\ holds (mkS m b) k' q).
  Proof.
    intros (v' & H). cbn in H. change (get keqb (put keqb m k (p, v)) k' = Some (q, v')) in H.
    rewrite (get_put keqb keqb_ok) in H. destruct (keqb_ok k k') as [->|Hd].
    - injection H as -> ->. auto.
    - right. split; auto. exists v'. auto.
  Qed.

  Lemma holds_del m b k k' q : holds (mkS (del keqb m k) b) k' q -> k' <> k /\ holds (mkS m b) k' q.
  Proof.
    intros (v' & H). cbn in H. rewrite (get_del keqb keqb_ok) in H. destruct (keqb_ok k k') as [->|Hd]; [discriminate|].
    split; auto. exists v'. auto.
  Qed.

  Lemma copy_inj m m' n n' k k' p b : fresh_copy keqb m m' n n' -> holds (mkS m' b) k p -> holds (mkS m' b) k' p -> k = k'.
  Proof.
    intros (HN & _ & HNp & _) (v & G) (v' & G'). cbn in *. apply (get_Some keqb keqb_ok) in G; auto. apply (get_Some keqb keqb_ok) in G'; auto.
    clear HN. induction m' as [|[k1 [p1 v1]] m' IH]; [destruct G|]. cbn in *. inversion HNp as [|? ? Hni HN']; subst.
    destruct G as [G|G]; destruct G' as [G'|G']; try (injection G as -> -> ->); try (injection G' as -> -> ->); auto; try congruence.
    - exfalso. apply Hni. apply in_map_iff. eexists (_, (_, _)). split; [|exact G']. reflexivity.
    - exfalso. apply Hni. apply in_map_iff. eexists (_, (_, _)). split; [|exact G]. reflexivity.
  Qed.

  Lemma copy_fresh m m' n n' k p b : fresh_copy keqb m m' n n' -> holds (mkS m' b) k p -> (n <= p < n')%nat.
  Proof. intros (_ & _ & _ & H & _) (v & G). eauto. Qed.

  Lemma own_tab w i st k p : tab w i = Some st -> holds st k p -> own (tabs w) i k p.
  Proof. intros H Hh. exists st. auto. Qed.

  Ltac invs :=
    repeat match goal with
    | H : own (set_tab _ _ _) _ _ _ |- _ => apply own_set in H as [(? & H)|(? & H)]
    | H : own (_ ++ [_]) _ _ _ |- _ => apply own_app in H as [(? & H)|(? & H)]
    | H : holds (mkS [] _) _ _ |- _ => destruct (holds_nil _ _ _ H)
    | H : holds (mkS (put _ _ _ _) _) _ _ |- _ => apply holds_put in H as [(? & ?)|(? & H)]
    | H : holds (mkS (del _ _ _) _) _ _ |- _ => apply holds_del in H as (? & H)
    end.

  Lemma T w i m b b' k p : tab w i = Some (mkS m b) -> holds (mkS m b') k p -> own (tabs w) i k p.
  Proof. intros Ht (v & Hv). eapply own_tab; eauto. exists v. exact Hv. Qed.
  Lemma TG w i m b k p v : tab w i = Some (mkS m b) -> get keqb m k = Some (p, v) -> own (tabs w) i k p.
  Proof. intros Ht Hv. eapply own_tab; eauto. exists v. exact Hv. Qed.

  Lemma wstep_wf w o a w' : wstep keqb dflt w o a w' -> wf w -> wf w'.
  Proof.
    intros HW. destruct HW; intros Hwf; pose proof Hwf as [W1 W2]; auto; (split; cbn [tabs next];
      [intros i1 k1 p1 O1|intros i1 k1 i2 k2 p1 O1 O2]); invs; subst.
    all: repeat match goal with
      | H : tab ?w ?i = Some (mkS ?m _), Hh : holds (mkS ?m _) _ _ |- _ => apply (T _ _ _ _ _ _ _ H) in Hh
      | H : tab ?w ?i = Some ?st, Hh : holds ?st _ _ |- _ => apply (own_tab _ _ _ _ _ H) in Hh
      | H : tab ?w ?i = Some (mkS ?m _), Hh : get keqb ?m ?k = Some (_, _) |- _ => apply (TG _ _ _ _ _ _ _ H) in Hh
      end.
    all: repeat match goal with
      | H : fresh_copy keqb _ ?m _ _, Hh : holds (mkS ?m _) ?k ?p, Hh' : holds (mkS ?m _) ?k' ?p |- _ =>
          lazymatch k with k' => fail | _ =>
          pose proof (copy_inj _ _ _ _ _ _ _ _ H Hh Hh'); subst end
      end.
    all: repeat match goal with
      | H : fresh_copy keqb _ ?m _ _, Hh : holds (mkS ?m _) _ _ |- _ => apply (copy_fresh _ _ _ _ _ _ _ H) in Hh
      | H : fresh_copy keqb _ _ _ _ |- _ => destruct H as (_ & _ & _ & _ & H)
      end.
    all: repeat match goal with
      | H1 : own (tabs ?w) ?i ?k ?p, H2 : own (tabs ?w) ?j ?k' ?p |- _ =>
          lazymatch constr:((i, k)) with (j, k') => fail | _ => destruct (W2 _ _ _ _ _ H1 H2); subst; try congruence end
      end.
    all: repeat match goal with H : own (tabs ?w) _ _ _ |- _ => apply W1 in H end.
    all: try (split; congruence); try lia.
  Qed.

  Lemma wexec_wf w l as_ w' : wexec keqb dflt w l as_ w' -> wf w -> wf w'.
  Proof. induction 1; auto. intros. apply IHwexec. eapply wstep_wf; eauto. Qed.

  Lemma wf0 : wf world0.
  Proof. split; cbn; [intros i k p (st & H & _)|intros i k i' k' p (st & H & _)]; destruct i; discriminate. Qed.

  Lemma tab_set_ne l i j (x : stab) : i <> j -> nth_error (set_tab l i x) j = nth_error l j.
  Proof. intros H. rewrite set_tab_upd. apply nth_error_upd_ne; auto. Qed.
  Lemma tab_set_eq l i (x y : stab) : nth_error l i = Some y -> nth_error (set_tab l i x) i = Some x.
  Proof. intros H. rewrite set_tab_upd. eapply nth_error_upd_eq; eauto. Qed.
  Lemma tab_app_l l i (x y : stab) : nth_error l i = Some y -> nth_error (l ++ [x]) i = Some y.
  Proof. intros H. rewrite nth_error_app1; auto. apply nth_error_Some. congruence. Qed.

  Lemma wstep_keeps w o a w' i k p v : wstep keqb dflt w o a w' -> wf w -> ~ ends i k o ->
    entry_at w i k p v -> entry_at w' i k p (last_write p [o] v).
  Proof.
    intros HW [W1 W2] Hne (st & Ht & G).
    assert (Hset : forall i0 x n, i0 <> i -> entry_at (mkW (set_tab (tabs w) i0 x) n) i k p v).
    { intros i0 x n Hi. exists st. split; auto. unfold tab. cbn. rewrite tab_set_ne; auto. }
    assert (Happ : forall x n, entry_at (mkW (tabs w ++ [x]) n) i k p v).
    { intros x n. exists st. split; auto. unfold tab. cbn. apply tab_app_l; auto. }
    assert (Hown : own (tabs w) i k p) by (exists st; split; auto; exists v; auto).
    assert (Hat : forall i0 m b n m' b', tab w i0 = Some (mkS m b) ->
              (i0 = i -> forall v0, get keqb m k = Some (p, v0) -> get keqb m' k = Some (p, v0)) ->
              entry_at (mkW (set_tab (tabs w) i0 (mkS m' b')) n) i k p v).
    { intros i0 m b n m' b' Ht0 Hm. destruct (Nat.eq_dec i0 i) as [->|Hd]; [|auto].
      rewrite Ht in Ht0. injection Ht0 as ->. cbn in G. eexists. split; [unfold tab; cbn; eapply tab_set_eq; eauto|]. cbn. auto. }
    inversion HW; subst; cbn [last_write]; cbn in Hne; eauto; try (exists st; split; auto; fail).
    - eapply Hat; eauto. intros -> v0 Gv. rewrite (get_put keqb keqb_ok).
      match goal with |- context [keqb ?x k] => destruct (keqb_ok x k) as [->|]; auto; congruence end.
    - match goal with |- context [Nat.eqb ?x p] => destruct (Nat.eqb_spec x p) as [->|Hd] end.
      + match goal with H : tab w ?i0 = Some (mkS ?m _), H' : get keqb ?m ?k1 = Some (p, _) |- _ =>
          assert (own (tabs w) i0 k1 p) as Ho by (eapply TG; eauto) end.
        destruct (W2 _ _ _ _ _ Hown Ho) as [<- <-].
        eexists. split; [unfold tab; cbn; eapply tab_set_eq; eauto|]. cbn [smap].
        rewrite (get_put keqb keqb_ok). destruct (keqb_ok k k); congruence.
      + eapply Hat; eauto. intros -> v1 Gv. rewrite (get_put keqb keqb_ok).
        match goal with |- context [keqb ?x k] => destruct (keqb_ok x k) as [->|]; auto; congruence end.
    - eapply Hat; eauto. intros -> v0 Gv. rewrite (get_del keqb keqb_ok).
      match goal with |- context [keqb ?x k] => destruct (keqb_ok x k) as [->|]; auto; tauto end.
    - exists st. split; auto. unfold tab. cbn. apply tab_app_l. rewrite tab_set_ne; auto.
    - exists st. split; auto. unfold tab. cbn. rewrite !tab_set_ne; auto.
  Qed.

  Lemma last_write_cons p (o : wop K V) l v : last_write p (o :: l) v = last_write p l (last_write p [o] v).
  Proof. destruct o; reflexivity. Qed.

  Lemma wexec_keeps w l as_ w' i k p v : wexec keqb dflt w l as_ w' -> wf w ->
    Forall (fun o => ~ ends i k o) l -> entry_at w i k p v -> entry_at w' i k p (last_write p l v).
  Proof.
    intros HW. revert v. induction HW as [|w o a w1 l as_ w2 Hs Hx IH]; intros v Hwf HF He; auto.
    inversion HF; subst. rewrite last_write_cons. apply IH; auto.
    - eapply wstep_wf; eauto.
    - eapply wstep_keeps; eauto.
  Qed.

  Lemma wexec_app w l1 l2 as1 w1 as2 w2 : wexec keqb dflt w l1 as1 w1 -> wexec keqb dflt w1 l2 as2 w2 ->
    wexec keqb dflt w (l1 ++ l2) (as1 ++ as2) w2.
  Proof. induction 1; cbn; auto. intros. econstructor; eauto. Qed.
End S.
