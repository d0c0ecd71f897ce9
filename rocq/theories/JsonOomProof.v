(** What one operation without memory leaves: the result of the operation with memory, or a memory that can be destroyed. *)
From Verif Require Import Base ValueSpec ValueModel ValueFaultSpec ValueFaultModel ValueProof ValueProof2 ValueProof3 ValueProof4 ValueProof5 ValueProof6 ValueProof8 ValueFaultProof ValueFaultProof2.
From Coq Require Import List NArith ZArith Bool Lia Arith.
Import ListNotations.

Section Near.
  Variable alloc : nat -> bool.

  (** [ra] is [r], or the lack of memory shows *)
  Definition nearc {A} (h : heap) (r : outcome (heap * A)) (ra : outcome (heap * nat * attempt A)) : Prop :=
    match ra with
    | Ret (h', _, Got a) => r = Ret (h', a)
    | Ret (h', _, Failed) => exists ex, h' = h ++ ex
    | Throw x => r = Throw x
    | UB u => r = UB u \/ u = NullDeref
    | Diverge => r = Diverge
    | Exit k => r = Exit k
    end.
  Lemma nearc_grow {A} h h1 ex (r : outcome (heap * A)) ra : h1 = h ++ ex -> nearc h1 r ra -> nearc h r ra.
  Proof. intros ->. unfold nearc. destruct ra as [[[h' c'] [a|]]| | | |]; auto. intros (e & ->). exists (ex ++ e). now rewrite app_assoc. Qed.
  Lemma copy_near fuel : forall h c v, nearc h (copy fuel h v) (copy_a alloc fuel h c v).
  Proof.
    induction fuel as [|f IH]; intros h c v; cbn [copy copy_a nearc]; [reflexivity|].
    assert (IHl : forall vs en h c, nearc h (copy_list (copy f) h vs) (copy_list_a alloc (copy_a alloc f) en h c vs)).
    { induction vs as [|w vs IHv]; intros en h0 c0; cbn [copy_list copy_list_a nearc]; [reflexivity|]. destruct (en && negb (alloc c0)); [cbn; auto|].
      specialize (IH h0 (if en then S c0 else c0) w). destruct (copy_a alloc f h0 _ w) as [[[h1 c1] [o|]]| | | |]; cbn [nearc bind] in *; [|exact IH|rewrite IH; reflexivity|destruct IH as [IH|IH]; [left; rewrite IH; reflexivity|auto]|rewrite IH; reflexivity..].
      rewrite IH. cbn [bind]. destruct (copy_grows _ _ _ _ _ IH) as (ex & ->). specialize (IHv en (h0 ++ ex) c1). apply (nearc_grow h0 _ ex) in IHv; [|reflexivity].
      destruct (copy_list_a alloc (copy_a alloc f) en (h0 ++ ex) c1 vs) as [[[h2 c2] [ws|]]| | | |]; cbn [nearc bind] in *; [|exact IHv|..]; try (rewrite IHv; reflexivity). destruct IHv as [IHv|IHv]; [left; rewrite IHv; reflexivity|auto]. }
    destruct (v_kind v); cbn [nearc]; [reflexivity|destruct (v_hold v); cbn [nearc]; auto|..]; (destruct (alloc c); cbn [negb]; [|exists []; now rewrite app_nil_r]); destruct (deref h (v_hold v)) as [[a b]| | | |]; cbn [bind nearc]; auto; destruct b; cbn [nearc]; auto.
    - destruct (negb (alloc (S c)) && negb (length vs =? 0)%nat); [cbn; auto|]. specialize (IHl vs false h (S (S c))).
      destruct (copy_list_a _ _ _ _ _ vs) as [[[h2 c2] [ws|]]| | | |]; cbn [nearc bind] in *; [|exact IHl|..]; try (rewrite IHl; reflexivity). destruct IHl as [IHl|IHl]; [left; rewrite IHl; reflexivity|auto].
    - destruct (negb (alloc (S c))); [cbn; auto|]. specialize (IHl (map snd ms) true h (S (S c))).
      destruct (copy_list_a _ _ _ _ _ (map snd ms)) as [[[h2 c2] [ws|]]| | | |]; cbn [nearc bind] in *; [|exact IHl|..]; try (rewrite IHl; reflexivity). destruct IHl as [IHl|IHl]; [left; rewrite IHl; reflexivity|auto].
  Qed.

  (** the same for a whole operation; [F] of what it leaves when it throws *)
  Definition nears {A} (F : A -> Prop) (r : outcome A) (ra : outcome (A * nat * bool)) : Prop :=
    match ra with
    | Ret (a, _, false) => r = Ret a
    | Ret (a, _, true) => F a
    | Throw x => r = Throw x
    | UB u => r = UB u \/ u = NullDeref
    | Diverge => r = Diverge
    | Exit k => r = Exit k
    end.
  Lemma nears_weaken {A} (F F' : A -> Prop) r ra : (forall a, F a -> F' a) -> nears F r ra -> nears F' r ra.
  Proof. intros H. destruct ra as [[[a c] []]| | | |]; cbn; auto. Qed.
  Lemma nears_bind {A B} F (r : outcome A) (k : A -> outcome B) ka : (forall a, r = Ret a -> nears F (k a) (ka a)) -> nears F (bind r k) (bind r ka).
  Proof. intros H. destruct r; cbn [bind]; [apply H; reflexivity|cbn; auto..]. Qed.
  Lemma nears_same {A} F (r : outcome A) c : nears F r (a <- r ;; Ret (a, c, false)).
  Proof. destruct r; cbn; auto. Qed.

  (** ** Assignment *)
  Definition assigned (h : heap) (l src : loc) (h' : heap) : Prop :=
    exists q v h1 ex, load h src = Ret q /\ load h l = Ret v /\ cheap (v_kind q) = false /\ store h l (mkV (v_kind q) (v_hold v)) = Ret h1 /\ h' = h1 ++ ex.
  Lemma assign_near h c l src : nears (assigned h l src) (assign h l src) (assign_a alloc h c l src).
  Proof.
    unfold assign, assign_a. apply nears_bind. intros q Hq. apply nears_bind. intros v Hv. apply nears_bind. intros h1 H1. apply nears_bind. intros q1 Hq1.
    pose proof (copy_near (fuel_of h1) h1 c (mkV (v_kind q) (v_hold q1))) as G. destruct (copy_a alloc (fuel_of h1) h1 c _) as [[[h2 c2] [o|]]| | | |] eqn:Ec; cbn [nearc bind nears] in *; try (rewrite G; reflexivity).
    - rewrite G. cbn [bind]. apply nears_same.
    - destruct G as (ex & ->). exists q, v, h1, ex. repeat (split; auto). destruct (cheap (v_kind q)) eqn:E; auto. rewrite (copy_cheap alloc) in Ec by exact E. destruct (copy _ _ _) as [[? ?]| | | |]; discriminate.
    - destruct G as [G|G]; [left; rewrite G; reflexivity|auto].
  Qed.

  (** ** Operations *)
  (** a construction or copy that failed *)
  Definition longer (s s' : state) : Prop := exists ex, s' = mkS (s_alive s) (s_mem s ++ ex).
  Lemma longer_refl s : longer s s.
  Proof. exists []. rewrite app_nil_r. now destruct s. Qed.
  Lemma begin_near s x r k (A : outcome (heap * val)) : nearc (s_mem s) A r -> (forall h' v, A = Ret (h', v) -> k (h', v) = begin_var (s_alive s) h' x v) ->
    nears (longer s) (bind A k) (r' <- r ;; begin_a (s_alive s) x r').
  Proof.
    intros G Hk. destruct r as [[[h' c'] [v|]]| | | |]; cbn [nearc bind] in *; try (rewrite G; reflexivity).
    - rewrite G. cbn [bind]. rewrite (Hk _ _ G). cbn [begin_a]. destruct (begin_var _ _ _ _); cbn; auto.
    - cbn [begin_a nears]. destruct G as (ex & ->). now exists ex.
    - destruct G as [G|G]; [left; rewrite G; reflexivity|right; auto].
  Qed.
  Lemma copy_construct_near h c v : nearc h (copy_construct h v) (copy_construct_a alloc h c v).
  Proof.
    unfold copy_construct, copy_construct_a. pose proof (copy_near (fuel_of h) h c v) as G. destruct (copy_a alloc (fuel_of h) h c v) as [[[h2 c2] [o|]]| | | |]; cbn [nearc bind] in *; try (rewrite G; reflexivity); auto.
    destruct G as [G|G]; [left; rewrite G; reflexivity|auto].
  Qed.
  Lemma construct_near h c k : nearc h (Ret (construct h k)) (construct_a alloc h c k).
  Proof.
    destruct k; cbn [construct construct_a]; unfold make.
    - reflexivity.
    - reflexivity.
    - destruct (alloc c); cbn; [reflexivity|exists []; now rewrite app_nil_r].
    - destruct (alloc c); cbn; [reflexivity|exists []; now rewrite app_nil_r].
    - destruct (alloc c); cbn; [reflexivity|exists []; now rewrite app_nil_r].
    - destruct (alloc (S c) && _); [cbn; auto|]. destruct (alloc (S c)); cbn; [reflexivity|exists []; now rewrite app_nil_r].
  Qed.

  (** what a failed operation leaves *)
  Definition leaves (s : state) (o : op) (s' : state) : Prop :=
    match o with
    | New _ _ | Copy _ _ => longer s s'
    | Assign (x, []) (y, []) => s_alive s' = s_alive s /\ assigned (s_mem s) (0, At x) (0, At y) (s_mem s')
    | Push (x, []) (y, []) =>
        s' = s \/ exists v a vs, load (s_mem s) (0, At x) = Ret v /\ deref (s_mem s) (v_hold v) = Ret (a, BArr vs) /\ s_alive s' = s_alive s /\
          assigned (set_block (s_mem s) a (BArr (vs ++ [mkV KUndef HGarbage]))) (a, At (length vs)) (0, At y) (s_mem s')
    | Put (x, []) k (y, []) =>
        exists v a ms, load (s_mem s) (0, At x) = Ret v /\ deref (s_mem s) (v_hold v) = Ret (a, BObj ms) /\ s_alive s' = s_alive s /\
          assigned (set_block (s_mem s) a (BObj (match assoc k ms with Some _ => ms | None => ms ++ [(k, mkV KUndef HNull)] end))) (a, Member k) (0, At y) (s_mem s')
    | Move _ _ | Destroy _ | Delegate _ _ => False
    | _ => True
    end.
  Lemma place_var' s x l : find_place s (x, []) = Ret l -> l = (0, At x).
  Proof. unfold find_place. cbn [fst snd locate]. destruct (is_alive _ _); congruence. Qed.
  Lemma assign_ret_near s h c l src (F : state -> Prop) : (forall h', assigned h l src h' -> F (mkS (s_alive s) h')) ->
    nears F (h' <- assign h l src ;; Ret (mkS (s_alive s) h')) (r <- assign_a alloc h c l src ;; let '(h', c', b) := r in Ret (mkS (s_alive s) h', c', b)).
  Proof.
    intros HF. pose proof (assign_near h c l src) as G. destruct (assign_a alloc h c l src) as [[[h' c'] []]| | | |]; cbn [nears bind] in *; auto; try (rewrite G; reflexivity). destruct G as [G|G]; [left; rewrite G; reflexivity|auto].
  Qed.
  Lemma step_near s c o : nears (leaves s o) (step_op s o) (step_a alloc s c o).
  Proof.
    destruct o; cbn [step_op step_a].
    - pose proof (begin_near s x (construct_a alloc (s_mem s) c c0) (fun r => begin_var (s_alive s) (fst r) x (snd r)) (Ret (construct (s_mem s) c0)) (construct_near _ _ _)) as G.
      cbn [bind] in G. destruct (construct (s_mem s) c0) as [h' v]. apply G; auto.
    - apply nears_bind. intros l _. apply nears_bind. intros v _.
      apply (begin_near s x (copy_construct_a alloc (s_mem s) c v) (fun r => let '(h', w) := r in begin_var (s_alive s) h' x w) (copy_construct (s_mem s) v)); [apply copy_construct_near|auto].
    - apply nears_same.
    - apply nears_bind. intros l Hl. apply nears_bind. intros l' Hl'. apply assign_ret_near. intros h' Ha. destruct p as [x [|]], q as [y [|]]; try exact I. apply place_var' in Hl as ->. apply place_var' in Hl' as ->. cbn [leaves s_alive s_mem]. auto.
    - apply nears_same.
    - apply nears_same.
    - match goal with |- nears _ ?r (bind ?r _) => apply (nears_weaken (fun _ => True)); [intros; destruct p; exact I|]; destruct r end; cbn; auto. now destruct (alloc c).
    - (* push *) apply nears_bind. intros l Hl. apply nears_bind. intros l' Hl'. apply nears_bind. intros v Hv. apply nears_bind. intros [a b] Hd. destruct b; cbn [nears]; auto.
      destruct (alloc c) eqn:Ea; cbn [negb].
      + destruct (fst l =? a)%nat; [cbn; auto|]. apply assign_ret_near. intros h' Ha. destruct p as [x [|]], q as [y [|]]; try exact I. apply place_var' in Hl as ->. apply place_var' in Hl' as ->. cbn [leaves]. right. exists v, a, vs. cbn [s_alive s_mem]. auto.
      + cbn [nears]. destruct p as [x [|]], q as [y [|]]; cbn [leaves]; auto.
    - (* pop *) apply nears_bind. intros l Hl. apply nears_bind. intros v Hv. apply nears_bind. intros [a b] Hd. destruct b; cbn [nears]; auto. destruct (rev vs) as [|w r]; cbn [nears]; auto.
      apply (nears_weaken (longer (mkS (s_alive s) (set_block (s_mem s) a (BArr (rev r)))))); [intros; exact I|].
      apply (begin_near (mkS (s_alive s) (set_block (s_mem s) a (BArr (rev r)))) x (copy_construct_a alloc (set_block (s_mem s) a (BArr (rev r))) c w) (fun r => let '(h', w) := r in begin_var (s_alive s) h' x w) (copy_construct (set_block (s_mem s) a (BArr (rev r))) w)); [apply copy_construct_near|auto].
    - match goal with |- nears _ ?r (bind ?r _) => apply (nears_weaken (fun _ => True)); [intros; destruct p; exact I|]; destruct r end; cbn; auto. now destruct (alloc c).
    - apply nears_same.
    - (* put *) apply nears_bind. intros l Hl. apply nears_bind. intros l' Hl'. apply nears_bind. intros v Hv. apply nears_bind. intros [a b] Hd. destruct b; cbn [nears]; auto.
      assert (G : nears (leaves s (Put p k q)) (h' <- assign (set_block (s_mem s) a (BObj (match assoc k ms with Some _ => ms | None => ms ++ [(k, mkV KUndef HNull)] end))) (a, Member k) l ;; Ret (mkS (s_alive s) h'))
        (match assoc k ms with
         | Some _ => r <- assign_a alloc (set_block (s_mem s) a (BObj ms)) c (a, Member k) l ;; let '(h', c', b) := r in Ret (mkS (s_alive s) h', c', b)
         | None => if negb (alloc c) || negb (alloc (S c)) then UB NullDeref else r <- assign_a alloc (set_block (s_mem s) a (BObj (ms ++ [(k, mkV KUndef HNull)]))) (S (S c)) (a, Member k) l ;; let '(h', c', b) := r in Ret (mkS (s_alive s) h', c', b)
         end)).
      { destruct (assoc k ms) eqn:Ek.
        - apply assign_ret_near. intros h' Ha. destruct p as [x [|]], q as [y [|]]; try exact I. apply place_var' in Hl as ->. apply place_var' in Hl' as ->. cbn [leaves]. exists v, a, ms. cbn [s_alive s_mem]. rewrite Ek. auto.
        - destruct (negb (alloc c) || negb (alloc (S c))); [cbn; auto|]. apply assign_ret_near. intros h' Ha. destruct p as [x [|]], q as [y [|]]; try exact I. apply place_var' in Hl as ->. apply place_var' in Hl' as ->. cbn [leaves]. exists v, a, ms. cbn [s_alive s_mem]. rewrite Ek. auto. }
      destruct (assoc k ms); [|exact G]. rewrite (deref_same _ _ _ _ Hd) in G |- *. exact G.
    - apply nears_bind. intros l Hl. apply nears_bind. intros v Hv. apply nears_bind. intros [a b] Hd. destruct b; cbn [nears]; auto. destruct (assoc k ms); [|reflexivity]. apply nears_bind. intros h' _. destruct (alloc c); cbn; auto.
    - apply nears_same.
  Qed.
End Near.
