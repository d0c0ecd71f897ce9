(** Tolerant operations: a lack of memory changes nothing. *)
From Verif Require Import Base ValueSpec ValueModel ValueFaultSpec ValueFaultModel ValueProof ValueProof2 ValueProof3 ValueProof4 ValueProof5 ValueProof6.
From Coq Require Import List NArith ZArith Bool Lia Arith.
Import ListNotations.

Lemma live_same h a b : live h a = Ret b -> set_block h a b = h.
Proof. unfold live, set_block. destruct (nth_error h a) as [[b0|b0|]|] eqn:E; intros H; try discriminate; injection H as ->; now apply set_nth_id. Qed.
Lemma deref_same h p a b : deref h p = Ret (a, b) -> set_block h a b = h.
Proof. destruct p as [| |a0|]; cbn [deref]; try discriminate. intros H. apply bind_ret in H as (b0 & E & H). injection H as <- <-. now apply live_same. Qed.
Lemma store_same h l v : load h l = Ret v -> store h l v = Ret h.
Proof.
  unfold load, store. intros H. apply bind_ret in H as (b & E & H). rewrite E. cbn [bind]. destruct (slot b (snd l)) eqn:Es; [|discriminate]. injection H as ->.
  rewrite (set_slot_id _ _ _ Es). now rewrite (live_same _ _ _ E).
Qed.

(** ** Without failures *)
Section Granted.
  Variable alloc : nat -> bool.
  Hypothesis yes : forall n, alloc n = true.
  Definition gets {A} (r : outcome (heap * A)) (ra : outcome (heap * nat * attempt A)) : Prop :=
    match r with
    | Ret (h, a) => exists c, ra = Ret (h, c, Got a)
    | Throw x => ra = Throw x | UB u => ra = UB u | Diverge => ra = Diverge | Exit k => ra = Exit k
    end.
  Lemma copy_yes fuel : forall h c v, gets (copy fuel h v) (copy_a alloc fuel h c v).
  Proof.
    induction fuel as [|f IH]; intros h c v; cbn [copy copy_a gets]; [reflexivity|].
    assert (IHl : forall vs en h c, gets (copy_list (copy f) h vs) (copy_list_a alloc (copy_a alloc f) en h c vs)).
    { induction vs as [|w vs IHv]; intros en h0 c0; cbn [copy_list copy_list_a gets]; [eauto|]. rewrite yes, andb_false_r.
      specialize (IH h0 (if en then S c0 else c0) w). destruct (copy f h0 w) as [[h1 o]| | | |]; cbn [gets bind] in *; [|rewrite IH; reflexivity..].
      destruct IH as (c1 & ->). cbn [bind]. specialize (IHv en h1 c1). destruct (copy_list (copy f) h1 vs) as [[h2 ws]| | | |]; cbn [gets bind] in *; [|rewrite IHv; reflexivity..].
      destruct IHv as (c2 & ->). cbn [bind]. eauto. }
    destruct (v_kind v); cbn [gets]; [eauto|destruct (v_hold v); cbn [gets]; eauto|..]; rewrite ?yes; cbn [negb andb]; destruct (deref h (v_hold v)) as [[a b]| | | |]; cbn [bind gets]; try reflexivity; destruct b; cbn [gets]; try reflexivity; eauto; rewrite ?yes; cbn [negb andb].
    - specialize (IHl vs false h (S (S c))). destruct (copy_list (copy f) h vs) as [[h2 ws]| | | |]; cbn [gets bind] in *; [|rewrite IHl; reflexivity..]. destruct IHl as (c2 & ->). cbn [bind]. eauto.
    - specialize (IHl (map snd ms) true h (S (S c))). destruct (copy_list (copy f) h (map snd ms)) as [[h2 ws]| | | |]; cbn [gets bind] in *; [|rewrite IHl; reflexivity..]. destruct IHl as (c2 & ->). cbn [bind]. eauto.
  Qed.
  Definition runs {A} (r : outcome A) (ra : outcome (A * nat * bool)) : Prop :=
    match r with
    | Ret a => exists c, ra = Ret (a, c, false)
    | Throw x => ra = Throw x | UB u => ra = UB u | Diverge => ra = Diverge | Exit k => ra = Exit k
    end.
  Lemma runs_bind {A B} (r : outcome A) (k : A -> outcome B) (ka : A -> outcome (B * nat * bool)) :
    (forall a, runs (k a) (ka a)) -> runs (bind r k) (bind r ka).
  Proof. intros H. destruct r; cbn [bind]; [apply H|reflexivity..]. Qed.
  Lemma assign_yes h c l src : runs (assign h l src) (assign_a alloc h c l src).
  Proof.
    unfold assign, assign_a. do 4 (apply runs_bind; intros ?). pose proof (copy_yes (fuel_of a1) a1 c (mkV (v_kind a) (v_hold a2))) as G.
    destruct (copy (fuel_of a1) a1 _) as [[h2 o]| | | |]; cbn [gets bind runs] in *; [|rewrite G; reflexivity..]. destruct G as (c2 & ->). cbn [bind].
    destruct (store h2 l _) as [h3| | | |]; cbn [bind runs]; eauto.
  Qed.
  Lemma begin_yes al h c x v : runs (begin_var al h x v) (begin_a al x (h, c, Got v)).
  Proof. unfold begin_a. destruct (begin_var al h x v); cbn [bind runs]; eauto. Qed.
  Lemma construct_yes al h c x k : runs (let (h', v) := construct h k in begin_var al h' x v) (r <- construct_a alloc h c k ;; begin_a al x r).
  Proof. destruct k; cbn [construct construct_a]; unfold make; rewrite ?yes; cbn [bind negb orb andb held]; apply begin_yes. Qed.
  Lemma copy_construct_yes al h c x v : runs ('(h', w) <- copy_construct h v ;; begin_var al h' x w) (r <- copy_construct_a alloc h c v ;; begin_a al x r).
  Proof.
    unfold copy_construct, copy_construct_a. pose proof (copy_yes (fuel_of h) h c v) as G. destruct (copy (fuel_of h) h v) as [[h2 o]| | | |]; cbn [gets bind runs] in *; [|rewrite G; reflexivity..].
    destruct G as (c2 & ->). cbn [bind]. apply begin_yes.
  Qed.
  Lemma assign_ret al h c l src : runs (h' <- assign h l src ;; Ret (mkS al h')) (r <- assign_a alloc h c l src ;; let '(h', c', b) := r in Ret (mkS al h', c', b)).
  Proof. pose proof (assign_yes h c l src) as G. destruct (assign h l src); cbn [bind runs] in *; [|rewrite G; reflexivity..]. destruct G as (c2 & ->). cbn [bind]. eauto. Qed.

  Lemma step_yes s c o : runs (step_op s o) (step_a alloc s c o).
  Proof.
    assert (Hsame : runs (step_op s o) (s' <- step_op s o ;; Ret (s', c, false))). { destruct (step_op s o); cbn [bind runs]; eauto. }
    assert (Hone : runs (step_op s o) (s' <- step_op s o ;; if alloc c then Ret (s', S c, false) else Ret (s, S c, true))). { rewrite yes. destruct (step_op s o); cbn [bind runs]; eauto. }
    destruct o; cbn [step_a]; try exact Hsame; try exact Hone; clear Hsame Hone; cbn [step_op].
    - apply construct_yes.
    - do 2 (apply runs_bind; intros ?). apply copy_construct_yes.
    - do 2 (apply runs_bind; intros ?). apply assign_ret.
    - do 3 (apply runs_bind; intros ?). apply runs_bind. intros [a' b]. destruct b; try reflexivity. rewrite yes. cbn [negb]. destruct (fst a =? a'); [reflexivity|]. apply assign_ret.
    - do 2 (apply runs_bind; intros ?). apply runs_bind. intros [a' b]. destruct b; try reflexivity. destruct (rev vs); [reflexivity|]. apply copy_construct_yes.
    - do 3 (apply runs_bind; intros ?). destruct (deref (s_mem s) (v_hold a1)) as [[a' b]| | | |] eqn:Ed; cbn [bind]; try reflexivity. destruct b; try reflexivity. destruct (assoc k ms) as [w|] eqn:E.
      + rewrite (deref_same _ _ _ _ Ed). apply assign_ret.
      + rewrite !yes. cbn [negb orb]. apply assign_ret.
    - do 2 (apply runs_bind; intros ?). apply runs_bind. intros [a' b]. destruct b; try reflexivity. destruct (assoc k ms) as [w|] eqn:E; [|cbn [runs]; eauto]. apply runs_bind. intros h'. rewrite yes. cbn [runs]. eauto.
  Qed.
  Lemma run_yes l : forall pre s c evs s' log, length evs = length pre -> run s l = Ret (s', log) ->
    exists c', run_a alloc (script (pre ++ l)) (length l) s c evs = Ret (s', c', evs ++ map (fun x => match x with None => Done | Some y => Thrown y end) log).
  Proof.
    induction l as [|o l IH]; intros pre s c evs s' log Hlen H; cbn [run run_a length] in *; [injection H as <- <-; cbn [map]; rewrite app_nil_r; eauto|].
    assert (En : script (pre ++ o :: l) evs = Some o). { unfold script. rewrite Hlen. apply nth_mid. } rewrite En.
    assert (Es : script (pre ++ o :: l) = script ((pre ++ [o]) ++ l)). { now rewrite <- app_assoc. } rewrite Es.
    pose proof (step_yes s c o) as G. destruct (step_op s o) as [s1|x| | |]; cbn [runs] in G; try discriminate.
    - destruct G as (c1 & ->). apply bind_ret in H as ([s2 xs] & E & H). injection H as <- <-. destruct (IH (pre ++ [o]) _ c1 (evs ++ [Done]) _ _ ltac:(rewrite !app_length; cbn; lia) E) as (c2 & ->). cbn [map]. rewrite <- app_assoc. cbn [app]. eauto.
    - rewrite G. apply bind_ret in H as ([s2 xs] & E & H). injection H as <- <-. destruct (IH (pre ++ [o]) _ c (evs ++ [Thrown x]) _ _ ltac:(rewrite !app_length; cbn; lia) E) as (c2 & ->). cbn [map]. rewrite <- app_assoc. cbn [app]. eauto.
  Qed.
End Granted.

(** ** Tolerant operations *)
Section Tolerant.
  Variable alloc : nat -> bool.

  Definition cheap (k : kind) : bool := match k with KUndef | KBool => true | _ => false end.
  Lemma cheap_costs t : cheap (kind_of t) = negb (costs t).
  Proof. destruct t; reflexivity. Qed.
  Lemma copy_cheap fuel h c v : cheap (v_kind v) = true -> copy_a alloc fuel h c v = ('(h', o) <- copy fuel h v ;; Ret (h', c, Got o)).
  Proof. intros H. destruct fuel; [reflexivity|]. cbn [copy copy_a]. destruct (v_kind v); try discriminate; [reflexivity|]. destruct (v_hold v); reflexivity. Qed.
  Lemma copy_flat fuel h c v t A h' o : owns h v t A -> flat t = true -> copy fuel h v = Ret (h', o) ->
    exists c', copy_a alloc fuel h c v = Ret (h', c', Got o) \/ (costs t = true /\ copy_a alloc fuel h c v = Ret (h, c', Failed)).
  Proof.
    intros Ho Hf H. destruct fuel as [|f]; [discriminate|]. destruct Ho as [p|b|a z Hc|a s Hc|a vs ts A Hc Hl|a ms mt A Hc H1 H2 Hl]; cbn [copy copy_a v_kind v_hold costs deref] in *; try rewrite (cell_live _ _ _ Hc) in *; cbn [bind] in *.
    - injection H as <- <-. eauto.
    - injection H as <- <-. eauto.
    - injection H as <- <-. destruct (alloc c); cbn [negb]; eauto.
    - injection H as <- <-. destruct (alloc c); cbn [negb]; eauto.
    - destruct ts; [|discriminate]. inversion Hl; subst. cbn [copy_list copy_list_a bind length] in *. injection H as <- <-. destruct (alloc c); cbn [negb]; [|eauto]. rewrite Nat.eqb_refl, andb_false_r. eauto.
    - discriminate.
  Qed.

  Lemma assign_cheap h c l src q : load h src = Ret q -> cheap (v_kind q) = true -> assign_a alloc h c l src = (h' <- assign h l src ;; Ret (h', c, false)).
  Proof.
    intros E H. unfold assign, assign_a. rewrite E. cbn [bind]. destruct (load h l) as [v| | | |]; cbn [bind]; try reflexivity. destruct (store h l _) as [h1| | | |]; cbn [bind]; try reflexivity.
    destruct (load h1 src) as [q1| | | |]; cbn [bind]; try reflexivity. rewrite copy_cheap by exact H. destruct (copy _ h1 _) as [[h2 o]| | | |]; cbn [bind]; reflexivity.
  Qed.
  Lemma assign_flat h c l src v0 vq t u Aq h' : load h l = Ret v0 -> v_kind v0 = kind_of t -> load h src = Ret vq -> owns h vq u Aq -> overwrites t u = true -> assign h l src = Ret h' ->
    exists c', assign_a alloc h c l src = Ret (h', c', false) \/ (costs u = true /\ assign_a alloc h c l src = Ret (h, c', true)).
  Proof.
    intros E0 K0 Eq Ho Hw H. pose proof (owns_kind _ _ _ _ Ho) as Kq. unfold overwrites in Hw. destruct (costs u) eqn:Ec; cbn [negb orb] in Hw.
    2: { exists c. left. rewrite (assign_cheap _ _ _ _ _ Eq) by (rewrite Kq, cheap_costs, Ec; reflexivity). now rewrite H. }
    apply andb_prop in Hw as [Hk Hf]. destruct (kind_eqb_spec (kind_of t) (kind_of u)) as [Hk'|]; [|discriminate].
    assert (Ev : mkV (v_kind vq) (v_hold v0) = v0) by (rewrite Kq, <- Hk', <- K0; apply val_eta).
    unfold assign, assign_a in *. rewrite Eq, E0 in *. cbn [bind] in *. rewrite Ev, (store_same _ _ _ E0) in *. cbn [bind] in *. rewrite Eq in *. cbn [bind] in *. rewrite val_eta in *.
    apply bind_ret in H as ([h2 o] & E & H). destruct (copy_flat _ _ c _ _ _ _ _ Ho Hf E) as (c' & [->|[_ ->]]); exists c'; cbn [bind]; [left|right; auto]. rewrite H. reflexivity.
  Qed.

  Definition agrees (ask : bool) (s : state) (r : outcome state) (ra : outcome (state * nat * bool)) : Prop :=
    match r with
    | Ret s' => exists c', ra = Ret (s', c', false) \/ (ask = true /\ ra = Ret (s, c', true))
    | Throw x => ra = Throw x
    | _ => True
    end.

  Lemma copy_construct_flat ask al h0 h c x v t A : owns h v t A -> flat t = true -> costs t = ask -> (ask = true -> h0 = h) ->
    agrees ask (mkS al h0) ('(h', w) <- copy_construct h v ;; begin_var al h' x w) (r <- copy_construct_a alloc h c v ;; begin_a al x r).
  Proof.
    intros Ho Hf Hc Hh. unfold copy_construct, copy_construct_a. destruct (copy (fuel_of h) h v) as [[h' o]|y| | |] eqn:E; cbn [bind agrees]; auto.
    - destruct (copy_flat _ _ c _ _ _ _ _ Ho Hf E) as (c' & [->|[Ha ->]]); cbn [bind begin_a].
      + destruct (begin_var al h' x _) as [s'|y| | |]; cbn [bind agrees]; auto. exists c'. auto.
      + assert (Hask : ask = true) by congruence. rewrite <- (Hh Hask). destruct (begin_var al h' x _) as [s'|y| | |] eqn:Eb; cbn [agrees]; eauto.
        unfold begin_var in Eb. destruct (nth_error al x) as [[]|]; try discriminate. destruct (store h' (0, At x) _) as [|z| | |] eqn:Es; cbn [bind] in Eb; try discriminate.
        unfold store, live in Es. destruct (nth_error h' _) as [[|b|]|]; cbn [bind] in Es; try discriminate; destruct (slot _ _); discriminate.
    - exfalso. apply (f_equal (fun r => match r with Throw _ => True | _ => False end)) in E. destruct Ho; cbn [fuel_of copy v_kind v_hold deref] in E; try rewrite (cell_live _ _ _ H) in E; cbn [bind] in E; try (rewrite E; exact I).
      + destruct ts; [|discriminate]. inversion H0; subst. cbn [copy_list bind] in E. rewrite E. exact I.
      + discriminate.
  Qed.

  Lemma assign_agrees ask al h0 h c l src v0 vq t u Aq : load h l = Ret v0 -> v_kind v0 = kind_of t -> load h src = Ret vq -> owns h vq u Aq -> overwrites t u = true -> (exists h', assign h l src = Ret h') -> costs u = ask -> (ask = true -> h0 = h) ->
    agrees ask (mkS al h0) (h' <- assign h l src ;; Ret (mkS al h')) (r <- assign_a alloc h c l src ;; let '(h', c', b) := r in Ret (mkS al h', c', b)).
  Proof.
    intros E0 K0 Eq Ho Hw (h' & H) Ha Hh. rewrite H. cbn [bind agrees]. destruct (assign_flat h c l src v0 vq t u Aq h' E0 K0 Eq Ho Hw H) as (c' & [->|[Hc ->]]); cbn [bind]; exists c'; [auto|right].
    assert (Hask : ask = true) by congruence. rewrite <- (Hh Hask). auto.
  Qed.

  Lemma owns_last h vs l A w r : owns_list h vs l A -> rev vs = w :: r -> exists A', owns h w (last l TUndef) A'.
  Proof.
    intros Hl Hr. assert (E : vs = rev r ++ [w]) by (rewrite <- (rev_involutive vs), Hr; reflexivity). subst vs. clear Hr. revert l A Hl. induction (rev r) as [|x xs IH]; intros l A Hl; inversion Hl; subst; cbn [app] in *.
    - match goal with H : owns_list _ [] _ _ |- _ => inversion H; subst end. cbn [last]. eauto.
    - destruct (IH _ _ H4) as (A' & G). exists A'. cbn [last]. destruct ts; auto. inversion H4. destruct xs; discriminate.
  Qed.

  Lemma step_tolerant s e c o e' x : inv s e -> astep e o = Some (e', x) -> tolerant e o = true -> agrees (asks e o) s (step_op s o) (step_a alloc s c o).
  Proof.
    intros (A & Hi) Hst Ht. destruct s as [al h]. cbn [s_alive s_mem] in Hi.
    assert (Hsame : forall ask, agrees ask (mkS al h) (step_op (mkS al h) o) (s' <- step_op (mkS al h) o ;; Ret (s', c, false))). { intros ask. destruct (step_op _ o); cbn [bind agrees]; eauto. }
    assert (Hone : agrees true (mkS al h) (step_op (mkS al h) o) (s' <- step_op (mkS al h) o ;; if alloc c then Ret (s', S c, false) else Ret (mkS al h, S c, true))).
    { destruct (step_op _ o); cbn [bind agrees]; auto. exists (S c). destruct (alloc c); auto. }
    assert (Hsim := step_sim (mkS al h) e o (ex_intro _ A Hi)). rewrite Hst in Hsim.
    destruct o; cbn [step_a]; try apply Hsame; try exact Hone; clear Hsame Hone; cbn [step_op s_mem s_alive astep_of tolerant asks negb andb] in *.
    - (* New *)
      assert (G : forall h' v c' ask, agrees ask (mkS al h) (begin_var al h' x0 v) (begin_a al x0 (h', c', Got v))). { intros h' v c' ask. unfold begin_a. destruct (begin_var al h' x0 v); cbn [bind agrees]; eauto. }
      assert (F : forall h' v c', (exists s', begin_var al h' x0 v = Ret s') -> agrees true (mkS al h) (begin_var al h' x0 v) (begin_a al x0 (h, c', Failed))). { intros h' v c' (s' & ->). cbn [agrees begin_a]. eauto. }
      destruct (is_fresh e x0); [|discriminate]. injection Hst as <- <-. cbn [sim] in Hsim. destruct Hsim as (s1 & E1 & _). cbn [step_op s_mem s_alive] in E1.
      destruct c0; try discriminate; cbn [construct construct_a tree_of costs] in *; unfold make; try (destruct (alloc c)); cbn [bind held]; try apply G; apply F; eauto.
    - (* Copy *)
      destruct (eget e p) as [t|y|] eqn:Eg; [|injection Hst as <- <-; now rewrite (find_missing _ _ _ _ _ _ Hi Eg)|discriminate].
      destruct (at_place _ _ _ _ _ _ Hi Eg) as (a & sl & b & v0 & A0 & Ar & Hp & _ & Hc & Hs & Hl & Ho & _). rewrite Hp. cbn [bind]. rewrite Hl. cbn [bind].
      eapply copy_construct_flat; eauto.
    - (* Assign *)
      destruct (eget e q) as [u|y|] eqn:Eq; [|injection Hst as <- <-; now rewrite (find_missing _ _ _ _ _ _ Hi Eq)|discriminate].
      destruct (at_place _ _ _ _ _ _ Hi Eq) as (aq & sq & bq & vq & Aq & Aqr & Hq & Wq & Hcq & Hsq & Hlq & Hoq & _). rewrite Hq in *. cbn [bind].
      destruct (eget e p) as [t|y|] eqn:Ep; [|injection Hst as <- <-; now rewrite (find_missing _ _ _ _ _ _ Hi Ep)|discriminate].
      destruct (at_place _ _ _ _ _ _ Hi Ep) as (a & sl & b & v0 & A0 & Ar & Hp & Wp & Hc & Hs & Hl & Ho & _). rewrite Hp. cbn [bind].
      destruct (prefix (full q) (full p) && negb (kind_eqb (kind_of t) (kind_of u))); [discriminate|]. injection Hst as <- <-. cbn [sim step_op s_mem s_alive] in Hsim. rewrite Hq, Hp in Hsim. cbn [bind] in Hsim. destruct Hsim as (s1 & E1 & _).
      apply bind_ret in E1 as (h' & E1 & _). eapply assign_agrees; eauto. now apply owns_kind in Ho.
    - (* Push *)
      destruct (eget e q) as [u|y|] eqn:Eq; [|injection Hst as <- <-; now rewrite (find_missing _ _ _ _ _ _ Hi Eq)|discriminate].
      destruct (at_place _ _ _ _ _ _ Hi Eq) as (aq & sq & bq & vq & Aq & Aqr & Hq & Wq & Hcq & Hsq & Hlq & Hoq & _). rewrite Hq in *. cbn [bind].
      destruct (eget e p) as [t|y|] eqn:Ep; [|injection Hst as <- <-; now rewrite (find_missing _ _ _ _ _ _ Hi Ep)|discriminate].
      destruct (at_place _ _ _ _ _ _ Hi Ep) as (a & sl & b & v0 & A0 & Ar & Hp & Wp & Hc & Hs & Hl & Ho & _). rewrite Hp. cbn [bind]. rewrite Hl. cbn [bind].
      destruct t as [| | | |l|]; try discriminate. inversion Ho as [| | | |a0 vs ? A1 Hc0 Hl0|]; subst. cbn [v_hold deref]. rewrite (cell_live _ _ _ Hc0). cbn [bind]. destruct (prefix (full q) (full p) || _); [discriminate|]. injection Hst as <- <-.
      cbn [sim step_op s_mem s_alive] in Hsim. rewrite Hq, Hp in Hsim. cbn [bind] in Hsim. rewrite Hl in Hsim. cbn [bind v_hold deref] in Hsim. rewrite (cell_live _ _ _ Hc0) in Hsim. cbn [bind] in Hsim. destruct Hsim as (s1 & E1 & _).
      cbn [fst] in *. destruct (aq =? a0) eqn:Ea; [discriminate|]. rewrite E1. cbn [agrees]. destruct (alloc c) eqn:Eal; cbn [negb]; [|exists (S c); auto].
      set (h1 := set_block h a0 (BArr (vs ++ [mkV KUndef HGarbage]))) in *. assert (Hld : load h1 (aq, sq) = Ret vq).
      { apply load_ok with bq; auto. apply set_block_live; auto. now apply Nat.eqb_neq in Ea. }
      rewrite (assign_cheap _ _ _ _ _ Hld) by (rewrite (owns_kind _ _ _ _ Hoq), cheap_costs; exact Ht). destruct (assign h1 _ _) as [h2| | | |]; try discriminate. cbn [bind] in *. injection E1 as <-. exists (S c). auto.
    - (* Pop *)
      destruct (eget e p) as [t|y|] eqn:Eg; [|injection Hst as <- <-; now rewrite (find_missing _ _ _ _ _ _ Hi Eg)|discriminate].
      destruct (at_place _ _ _ _ _ _ Hi Eg) as (a & sl & b & v0 & A0 & Ar & Hp & _ & Hc & Hs & Hl & Ho & _). rewrite Hp. cbn [bind]. rewrite Hl. cbn [bind].
      destruct t as [| | | |l|]; try discriminate. inversion Ho as [| | | |a0 vs ? A1 Hc0 Hl0|]; subst. cbn [v_hold deref]. rewrite (cell_live _ _ _ Hc0). cbn [bind]. destruct (rev vs) as [|w r] eqn:Er; [exact I|].
      destruct (owns_last _ _ _ _ _ _ Hl0 Er) as (A' & Hw). pose proof (owns_kind _ _ _ _ Hw) as Kw. apply negb_true_iff in Ht. rewrite Ht.
      unfold copy_construct, copy_construct_a. rewrite copy_cheap by (rewrite Kw, cheap_costs, Ht; reflexivity). set (h1 := set_block h a0 _). destruct (copy (fuel_of h1) h1 w) as [[h2 o]| | | |]; cbn [bind agrees]; auto.
      unfold begin_a. destruct (begin_var al h2 x0 _); cbn [bind agrees]; eauto.
    - (* Put *)
      destruct (eget e q) as [u|y|] eqn:Eq; [|injection Hst as <- <-; now rewrite (find_missing _ _ _ _ _ _ Hi Eq)|discriminate].
      destruct (at_place _ _ _ _ _ _ Hi Eq) as (aq & sq & bq & vq & Aq & Aqr & Hq & Wq & Hcq & Hsq & Hlq & Hoq & _). rewrite Hq in *. cbn [bind].
      destruct (eget e p) as [t|y|] eqn:Ep; [|injection Hst as <- <-; now rewrite (find_missing _ _ _ _ _ _ Hi Ep)|discriminate].
      destruct (at_place _ _ _ _ _ _ Hi Ep) as (a & sl & b & v0 & A0 & Ar & Hp & Wp & Hc & Hs & Hl & Ho & _). rewrite Hp. cbn [bind]. rewrite Hl. cbn [bind].
      destruct t as [| | | | |mt]; try discriminate. inversion Ho as [| | | | |a0 ms ? A1 Hc0 Hf Hnd Hl0]; subst. cbn [v_hold deref]. rewrite (cell_live _ _ _ Hc0). cbn [bind].
      destruct (assoc k mt) as [tc|] eqn:Ek; [|discriminate]. destruct (obj_split _ _ _ _ _ _ Hf Hl0 Ek) as (ms1 & vc & ms2 & mt1 & mt2 & B1 & Bc & B2 & Ems & _ & Hk1 & _ & _ & _ & _ & _ & Hvc & _).
      assert (Ea : assoc k ms = Some vc) by (rewrite Ems; now apply assoc_mid). rewrite Ea. rewrite (set_block_id _ _ _ Hc0).
      destruct (prefix (full q) (full p) && negb (kind_eqb (kind_of tc) (kind_of u))); [discriminate|]. injection Hst as <- <-. cbn [sim step_op s_mem s_alive] in Hsim. rewrite Hq, Hp in Hsim. cbn [bind] in Hsim. rewrite Hl in Hsim. cbn [bind v_hold deref] in Hsim. rewrite (cell_live _ _ _ Hc0) in Hsim. cbn [bind] in Hsim. rewrite Ea, (set_block_id _ _ _ Hc0) in Hsim.
      destruct Hsim as (s1 & E1 & _). apply bind_ret in E1 as (h' & E1 & _).
      assert (G : agrees (costs u) (mkS al h) (h'0 <- assign h (a0, Member k) (aq, sq) ;; Ret (mkS al h'0)) (r <- assign_a alloc h c (a0, Member k) (aq, sq) ;; let '(h'0, c', b0) := r in Ret (mkS al h'0, c', b0))).
      { apply assign_agrees with vc vq tc u Aq; eauto. - apply load_ok with (BObj ms); auto. - now apply owns_kind in Hvc. }
      rewrite E1 in *. cbn [bind agrees] in *. destruct G as (c' & [G|[_ G]]); exists c'; auto.
    - (* Erase *)
      destruct (eget e p) as [t|y|] eqn:Eg; [|injection Hst as <- <-; now rewrite (find_missing _ _ _ _ _ _ Hi Eg)|discriminate].
      destruct (at_place _ _ _ _ _ _ Hi Eg) as (a & sl & b & v0 & A0 & Ar & Hp & _ & Hc & Hs & Hl & Ho & _). rewrite Hp. cbn [bind]. rewrite Hl. cbn [bind].
      destruct t as [| | | | |mt]; try discriminate. inversion Ho as [| | | | |a0 ms ? A1 Hc0 Hf Hnd Hl0]; subst. cbn [v_hold deref]. rewrite (cell_live _ _ _ Hc0). cbn [bind].
      destruct (assoc k mt) as [tc|] eqn:Ek; [discriminate|]. apply assoc_none in Ek. rewrite <- Hf in Ek. apply assoc_none in Ek. rewrite Ek. cbn [agrees]. exists c. auto.
  Qed.

  Theorem run_careful next n : careful next n -> forall k s c e evs, inv s e -> reach next n e evs ->
    exists s' c' e' evs', run_a alloc next k s c evs = Ret (s', c', evs') /\ reach next n e' evs' /\ inv s' e'.
  Proof.
    intros Hc. induction k as [|k IH]; intros s c e evs Hi Hr; cbn [run_a]; [exists s, c, e, evs; auto|].
    destruct (next evs) as [o|] eqn:En; [|exists s, c, e, evs; auto]. destruct (Hc _ _ _ Hr En) as [Ht Hm]. destruct (astep e o) as [[e1 x]|] eqn:Est; [clear Hm|contradiction].
    pose proof (step_tolerant s e c o e1 x Hi Est Ht) as G. pose proof (step_sim s e o Hi) as Hsim. rewrite Est in Hsim. destruct x as [x|]; cbn [sim] in Hsim.
    - rewrite Hsim in G. cbn [agrees] in G. rewrite G. assert (e1 = e) by (eapply throw_same; eauto). subst e1. apply (IH s c e); auto. eapply reach_throw; eauto.
    - destruct Hsim as (s1 & E1 & Hi1). rewrite E1 in G. cbn [agrees] in G. destruct G as (c1 & [G|[Ha G]]); rewrite G.
      + apply (IH s1 c1 e1); auto. eapply reach_done; eauto.
      + apply (IH s c1 e); auto. eapply reach_fail; eauto.
  Qed.
End Tolerant.

(** ** Trying again *)
Lemma arun_snoc l : forall e e1 log o e2 x, arun e l = Some (e1, log) -> astep e1 o = Some (e2, x) -> arun e (l ++ [o]) = Some (e2, log ++ [x]).
Proof.
  induction l as [|o' l IH]; intros e e1 log o e2 x H Ho; cbn [arun_of app] in *; [injection H as -> <-; now rewrite Ho|].
  destruct (astep e o') as [[e' y]|]; [|discriminate]. destruct (arun e' l) as [[e'' xs]|] eqn:E; [|discriminate]. injection H as <- <-. now rewrite (IH _ _ _ _ _ _ E Ho).
Qed.
Lemma firstn_snoc {A} (l : list A) k o : nth_error l k = Some o -> firstn (S k) l = firstn k l ++ [o].
Proof. revert k. induction l as [|a l IH]; intros [|k] H; try discriminate; cbn [firstn nth_error app] in *; [injection H as ->; reflexivity|]. f_equal. now apply IH. Qed.
Lemma tolerant_at l : forall e k e1 log o, tolerant_all e l = true -> arun e (firstn k l) = Some (e1, log) -> nth_error l k = Some o -> tolerant e1 o = true /\ astep e1 o <> None.
Proof.
  induction l as [|o' l IH]; intros e k e1 log o Ht Hr Hn; [destruct k; discriminate|]. cbn [tolerant_all] in Ht. apply andb_prop in Ht as [Ht Hl]. destruct (astep e o') as [[e' y]|] eqn:E; [|discriminate]. destruct k as [|k]; cbn [firstn nth_error arun_of] in *.
  - injection Hr as <- <-. injection Hn as <-. rewrite E. split; [exact Ht|discriminate].
  - rewrite E in Hr. destruct (arun e' (firstn k l)) as [[e'' xs]|] eqn:E2; [|discriminate]. injection Hr as <- <-. eapply IH; eauto.
Qed.
Lemma retry_reach l n e evs : reach (retry l) n e evs -> exists k log, k = length (filter granted evs) /\ arun (env0 n) (firstn k l) = Some (e, log) /\ filter granted evs = events log.
Proof.
  induction 1 as [|e evs o e' Hr IH Hn Ho|e evs o e' x Hr IH Hn Ho|e evs o r Hr IH Hn Ho Ha].
  - exists 0, []. cbn. auto.
  - destruct IH as (k & log & Ek & E & El). exists (S k), (log ++ [None]). rewrite filter_app. cbn [filter granted]. rewrite app_length. cbn [length]. split; [lia|]. unfold retry in Hn. rewrite <- Ek in Hn. rewrite (firstn_snoc _ _ _ Hn), El. unfold events. rewrite map_app. split; [eapply arun_snoc; eauto|reflexivity].
  - destruct IH as (k & log & Ek & E & El). exists (S k), (log ++ [Some x]). rewrite filter_app. cbn [filter granted]. rewrite app_length. cbn [length]. split; [lia|]. unfold retry in Hn. rewrite <- Ek in Hn. rewrite (firstn_snoc _ _ _ Hn), El. unfold events. rewrite map_app. split; [eapply arun_snoc; eauto|reflexivity].
  - destruct IH as (k & log & Ek & E & El). exists k, log. rewrite filter_app. cbn [filter granted]. rewrite app_nil_r. auto.
Qed.
Lemma retry_careful l n : tolerant_all (env0 n) l = true -> careful (retry l) n.
Proof. intros Ht e evs o Hr Hn. destruct (retry_reach _ _ _ _ Hr) as (k & log & Ek & E & _). unfold retry in Hn. rewrite <- Ek in Hn. eapply tolerant_at; eauto. Qed.
